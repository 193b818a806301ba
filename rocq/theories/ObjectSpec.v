(** * What the object generator is asked for: the claims' vocabulary *)

From Coq Require Import String Ascii List Bool Arith.
Import ListNotations.
From Verif Require Import GoLib DeepModel DeepSpec ImportModel ImportSpec ObjectModel.
Open Scope string_scope.
Open Scope nat_scope.
Open Scope list_scope.

(** ** Markers *)

(** [x] is the first value of the marker [name]; there is no value. *)
Definition first (v : mvals) (name : string) (x : mval) : Prop := exists l, In (name, x :: l) v.
Definition absent (v : mvals) (name : string) : Prop := forall l, In (name, l) v -> l = [].

(** Markers as they come from the registry: by name, and with values of the type of their definition. *)
Record typed (v : mvals) : Prop := {
  ty_names : NoDup (map fst v);
  ty_generate : forall x, first v generate_name x -> exists b, x = VBool b;
  ty_root : forall x, first v root_name x -> exists b, x = VBool b;
  ty_legacy : forall x, first v legacy_name x -> exists s, x = VRaw s }.

(** A type is to be a runtime.Object: the first object:root says so or, without one, a legacy marker. *)
Definition object_asked (v : mvals) : Prop :=
  first v root_name (VBool true) \/
  (absent v root_name /\ exists l, In (interfaces_name, l) v /\ In (VText runtime_object) l).

(** A package asks for all its types. *)
Definition package_asked (v : mvals) : Prop :=
  first v generate_name (VBool true) \/
  (absent v generate_name /\ exists s, first v legacy_name (VRaw s) /\ (s = "package" \/ exists r, s = ("package," ++ r)%string)).

(** A type is asked for: by itself or, if it says nothing, by the package or as an object. *)
Definition type_asked (pkg v : mvals) : Prop :=
  first v generate_name (VBool true) \/
  (absent v generate_name /\ first v legacy_name (VRaw "true")) \/
  (absent v generate_name /\ absent v legacy_name /\ (package_asked pkg \/ object_asked v)).

(** ** Types *)

Section Types.
Variable decls : string -> decl.
Variable exported : string -> bool.
Variable home : string -> place.

Definition manual (n : string) : Prop := d_copy (decls n) <> None \/ d_into (decls n) = true.

(** A type that has, or can have, methods of its own that copy: not a basic type, nor a pointer type; unless there is a
    method already, on it or on what it points to. *)
Definition copyable (n : string) : Prop :=
  match d_under (decls n) with
  | TPtr e => exists m, e = TNamed m /\ manual m /\ forall e', d_under (decls m) <> TPtr e'
  | TBasic _ _ => manual n
  | _ => True
  end.

(** The types for which methods are due. *)
Definition due (pkg : mvals) (i : info) : Prop :=
  type_asked pkg (i_marks i) /\ exported (i_name i) = true /\ i_type i = Defined /\ copyable (i_name i).

(** The methods [m] go with what is written by hand for the type of [i]. *)
Definition completes (i : info) (m : written) : Prop :=
  (w_into m <> None <-> d_into (decls (i_name i)) = false) /\
  (w_copy m <> None <-> d_copy (decls (i_name i)) = None) /\
  (w_object m <> None <-> object_asked (i_marks i) /\ d_copy (decls (i_name i)) = None).

(** go/types: the type under a name is not a name; no methods on named pointer types. *)
Definition go_decls : Prop :=
  (forall n m, d_under (decls n) <> TNamed m) /\
  (forall n e, d_under (decls n) = TPtr e -> d_copy (decls n) = None /\ d_into (decls n) = false).

(** All names in a type, those of the fields of a struct type literal included. *)
Fixpoint mentions (t : ty) : list string :=
  match t with
  | TNamed n => [n]
  | TPtr e | TSlice e => mentions e
  | TMap k e => mentions k ++ mentions e
  | TStruct fs => (fix all (fs : list ty) := match fs with [] => [] | f :: fs' => mentions f ++ all fs' end) fs
  | TBasic _ _ | TOther _ => []
  end.

(** ** The imports that a file needs *)

(** The name [n] is written in a type, in an expression, in a statement. *)
Inductive in_type (n : string) : ty -> Prop :=
| it_name : in_type n (TNamed n)
| it_ptr e : in_type n e -> in_type n (TPtr e)
| it_slice e : in_type n e -> in_type n (TSlice e)
| it_key k e : in_type n k -> in_type n (TMap k e)
| it_elem k e : in_type n e -> in_type n (TMap k e).
Inductive in_expr (n : string) : expr -> Prop :=
| ie_new t : in_type n t -> in_expr n (ENew t)
| ie_make t l : in_type n t -> in_expr n (EMake t l).
Inductive in_stmt (n : string) : stmt -> Prop :=
| is_set l e : in_expr n e -> in_stmt n (SSet l e)
| is_set_map l x e : in_expr n e -> in_stmt n (SSetMap l x e)
| is_var x t : in_type n t -> in_stmt n (SVar x t)
| is_let x e : in_expr n e -> in_stmt n (SLet x e)
| is_in e1 e2 : in_expr n e1 -> in_stmt n (SInOut e1 e2)
| is_out e1 e2 : in_expr n e2 -> in_stmt n (SInOut e1 e2)
| is_some l b s : In s b -> in_stmt n s -> in_stmt n (SIfSome l b)
| is_nil l b1 b2 s : In s b1 -> in_stmt n s -> in_stmt n (SIfNil l b1 b2)
| is_else l b1 b2 s : In s b2 -> in_stmt n s -> in_stmt n (SIfNil l b1 b2)
| is_for_map l b s : In s b -> in_stmt n s -> in_stmt n (SForMap l b)
| is_for_slice l b s : In s b -> in_stmt n s -> in_stmt n (SForSlice l b)
| is_into l e : in_expr n e -> in_stmt n (SInto l e)
| is_block b s : In s b -> in_stmt n s -> in_stmt n (SBlock b).

(** [p] is imported for the code [m]: one of the types written there is from there, or it is a runtime.Object. *)
Definition uses (m : written) (p : word) : Prop :=
  (exists ptr b n q, w_into m = Some (ptr, b) /\ (exists s, In s b /\ in_stmt n s) /\ home n = Foreign q /\ means q p) \/
  (w_object m <> None /\ p = w "k8s.io/apimachinery/pkg/runtime").

(** ** What there is in the end *)

(** The methods of a type once the file is there: those written by hand, those of the file, none. [abroad]: of the types of
    other packages. *)
Definition methods_after (abroad : string -> meths) (f : option file) (n : string) : meths :=
  match home n with
  | Local =>
      let m := match f with
               | Some f => match mget String.eqb (f_methods f) n with Some m => m | None => mkWritten None None None end
               | None => mkWritten None None None
               end in
      mkmeths (match d_copy (decls n) with
               | Some p => CopyMan p
               | None => match w_copy m with Some p => CopyGen p | None => NoCopy end
               end)
              (if d_into (decls n) then IntoMan
               else match w_into m with Some (p, b) => IntoGen p b | None => NoInto end)
  | _ => abroad n
  end.

(** The methods in a file that may not be there. *)
Definition methods (out : option file) : list (string * written) := match out with Some f => f_methods f | None => [] end.

(** The same code, but for the alias of a package. *)
Definition same_code (m m' : written) : Prop :=
  w_into m = w_into m' /\ w_copy m = w_copy m' /\ option_map fst (w_object m) = option_map fst (w_object m').
End Types.
