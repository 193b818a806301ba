(** * The manifests: what is claimed (C50) *)

From Coq Require Import String Ascii List Bool Arith.
Import ListNotations.
From Verif Require Import GoLib ManifestModel.
Open Scope string_scope.
Open Scope list_scope.

(** ** Trees *)

Inductive step := Key (k : string) | Index (i : nat).

(** The node of a tree that a path leads to. *)
Fixpoint node (p : list step) (v : val) : option val :=
  match p with
  | [] => Some v
  | Key k :: p' => match v with Map m => match mget String.eqb m k with Some v' => node p' v' | None => None end | _ => None end
  | Index i :: p' => match v with Seq l => match nth_error l i with Some v' => node p' v' | None => None end | _ => None end
  end.

(** What is at a node itself, whatever is below it. *)
Inductive label := LScalar (x : scalar) | LSeq (n : nat) | LMap.
Definition look (p : list step) (v : val) : option label :=
  match node p v with
  | None => None
  | Some (Scalar x) => Some (LScalar x)
  | Some (Seq l) => Some (LSeq (List.length l))
  | Some (Map _) => Some LMap
  end.

(** Go maps have no key twice. *)
Definition go_tree (v : val) : Prop := forall p m, node p v = Some (Map m) -> NoDup (map fst m).

Definition below (p q : list step) : Prop := exists r, q = p ++ r.

(** ** Text *)

Definition newline : ascii := ascii_of_nat 10.

(** The lines of a text, without their ends. *)
Fixpoint lines_from (cur s : string) : list string :=
  match s with
  | EmptyString => if String.eqb cur "" then [] else [cur]
  | String c s' => if Ascii.eqb c newline then cur :: lines_from "" s' else lines_from (cur ++ String c "") s'
  end.
Definition lines (s : string) : list string := lines_from "" s.

(** Every line has its end. *)
Definition whole (s : string) : Prop := s = "" \/ exists t, s = (t ++ String newline "")%string.

(** The documents of a YAML file: a line with three dashes begins a new one. *)
Fixpoint documents_from (cur ls : list string) : list (list string) :=
  match ls with
  | [] => [cur]
  | l :: ls' => if String.eqb l "---" then cur :: documents_from [] ls' else documents_from (cur ++ [l]) ls'
  end.
Definition documents (s : string) : list (list string) := documents_from [] (lines s).

(** s' is s with all occurrences of old replaced by new, from the left, none of which overlaps another. *)
Inductive replaced (old new : string) : string -> string -> Prop :=
| r_none s : (forall a b, s <> (a ++ old ++ b)%string) -> replaced old new s s
| r_first a b b' :
    (forall a1 b1, (a ++ old ++ b)%string = (a1 ++ old ++ b1)%string -> String.length a <= String.length a1) ->
    replaced old new b b' -> replaced old new (a ++ old ++ b) (a ++ new ++ b').
