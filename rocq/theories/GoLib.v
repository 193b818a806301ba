(** * GoLib: the parts of Go and its standard library that the model uses.

    Go strings are byte sequences; Coq's [string] is a list of bytes ([ascii]).
    Go maps are association lists without duplicate keys; a [range] over a map
    visits the entries in an order chosen by the runtime, which the model takes
    from an explicit order oracle (see [is_order]). *)

From Coq Require Import List String Ascii Bool Arith Lia NArith Permutation Sorting.Sorted.
Import ListNotations.
Open Scope string_scope.
Open Scope list_scope.

Set Implicit Arguments.

(** ** Bytes and strings *)

(** Go: comparison of bytes. Below the comparison of strings, as at pkg/crd/spec.go:141. *)
Definition byte_ltb (a b : ascii) : bool := N.ltb (N_of_ascii a) (N_of_ascii b).

(** Go: [s < t] on strings, bytewise lexicographic. As at pkg/crd/spec.go:141 and pkg/crd/gen.go:331-333. *)
Fixpoint str_ltb (s t : string) : bool :=
  match s, t with
  | _, EmptyString => false
  | EmptyString, String _ _ => true
  | String a s', String b t' =>
      if Ascii.eqb a b then str_ltb s' t' else byte_ltb a b
  end.

(** Go: [s <= t]. No call in /repo: used to state that lists are sorted, as pkg/rbac/parser.go:142 makes them. *)
Definition str_leb (s t : string) : bool := negb (str_ltb t s).

(** Go: [strings.Join]. Called at pkg/rbac/parser.go:88-91 and pkg/markers/zip.go:119. *)
Fixpoint join (sep : string) (l : list string) : string :=
  match l with
  | [] => ""
  | [x] => x
  | x :: l' => (x ++ sep ++ join sep l')%string
  end.

(** Go: [strings.HasPrefix]. Called at pkg/markers/zip.go:63, pkg/crd/flatten.go:292 and pkg/crd/schema.go:154. *)
Fixpoint has_prefix (pre s : string) : bool :=
  match pre, s with
  | EmptyString, _ => true
  | String a p', String b s' => Ascii.eqb a b && has_prefix p' s'
  | String _ _, EmptyString => false
  end.

(** Go: [s[n:]] for [n <= len(s)] (the empty string beyond). As at pkg/markers/collect.go:212 and
    pkg/crd/flatten.go:296. *)
Fixpoint str_drop (n : nat) (s : string) : string :=
  match n, s with
  | O, _ => s
  | S n', String _ s' => str_drop n' s'
  | S _, EmptyString => EmptyString
  end.

(** Go: [s[:n]] for [n <= len(s)] (the whole string beyond). As at pkg/crd/desc_visitor.go:62-81. *)
Fixpoint str_take (n : nat) (s : string) : string :=
  match n, s with
  | O, _ => EmptyString
  | S n', String c s' => String c (str_take n' s')
  | S _, EmptyString => EmptyString
  end.

(** Go: [strings.Contains]. No call in /repo: used to state what pkg/crd/flatten.go:291-302 finds. *)
Fixpoint str_contains (s sub : string) : bool :=
  has_prefix sub s ||
  match s with
  | EmptyString => false
  | String _ s' => str_contains s' sub
  end.

(** Go: [strings.Index]; [None] stands for -1. Below go/ast's isDirective, reached from pkg/markers/zip.go:72. *)
Fixpoint str_index (s sub : string) : option nat :=
  if has_prefix sub s then Some 0
  else match s with
       | EmptyString => None
       | String _ s' => option_map S (str_index s' sub)
       end.

(** Go: [strings.LastIndex]; [None] stands for -1. Called at pkg/deepcopy/traverse.go:96. *)
Fixpoint str_last_index (s sub : string) : option nat :=
  match s with
  | EmptyString => if has_prefix sub s then Some 0 else None
  | String _ s' =>
      match str_last_index s' sub with
      | Some n => Some (S n)
      | None => if has_prefix sub s then Some 0 else None
      end
  end.

(** Go: [strings.Split(s, c)] for a one-byte separator. Called at pkg/deepcopy/gen.go:103, pkg/markers/parse.go:752
    and :976, pkg/crd/schema.go:423. *)
Fixpoint split_char (c : ascii) (s : string) : list string :=
  match s with
  | EmptyString => [EmptyString]
  | String a s' =>
      if Ascii.eqb a c then EmptyString :: split_char c s'
      else match split_char c s' with
           | [] => [String a EmptyString]
           | x :: xs => String a x :: xs
           end
  end.

(** Go: [strings.Split(s, sep)] for a non-empty separator. [fuel] bounds the number of bytes
    consumed, every step consumes at least one ([S (length s)] is always enough). Called at pkg/loader/paths.go:30. *)
Fixpoint split_fuel (fuel : nat) (sep : string) (acc : string) (s : string) : list string :=
  match fuel with
  | O => [acc]
  | S fuel' =>
      match s with
      | EmptyString => [acc]
      | String a s' =>
          if has_prefix sep s
          then acc :: split_fuel fuel' sep EmptyString (str_drop (String.length sep) s)
          else split_fuel fuel' sep (acc ++ String a EmptyString)%string s'
      end
  end.
(** Called at pkg/loader/paths.go:30 *)
Definition split_str (sep s : string) : list string :=
  split_fuel (S (String.length s)) sep EmptyString s.

(** Go: [strings.ReplaceAll(s, c, by)] for a one-byte [c]. Called at pkg/crd/schema.go:249. *)
Fixpoint replace_char (c : ascii) (by_ : string) (s : string) : string :=
  match s with
  | EmptyString => EmptyString
  | String a s' =>
      if Ascii.eqb a c then (by_ ++ replace_char c by_ s')%string
      else String a (replace_char c by_ s')
  end.

(** Does the byte occur in the string?. No call in /repo: used to state what pkg/crd/flatten.go:291-302 finds. *)
Fixpoint has_char (c : ascii) (s : string) : bool :=
  match s with
  | EmptyString => false
  | String a s' => Ascii.eqb a c || has_char c s'
  end.

(** No call in /repo: a Go string and its bytes, as ranged over below pkg/crd/desc_visitor.go:62-81 *)
Definition bytes := list_ascii_of_string.
(** No call in /repo: a Go string and its bytes, as ranged over below pkg/crd/desc_visitor.go:62-81 *)
Definition of_bytes := string_of_list_ascii.

(** ** Slices of strings *)

(** The set of strings of pkg/rbac/parser.go:130-144, and loops like it *)
Definition mem_str (x : string) (l : list string) : bool := existsb (String.eqb x) l.

(** ** Sorting *)

(** Insertion sort by a "less" function. It is stable, so it models [sort.SliceStable]
    directly; an unstable sort ([sort.Slice], [sort.Sort]) is this sort applied to an
    arbitrary permutation of its input. *)
Section Sort.
  Variable A : Type.
  Variable lt : A -> A -> bool.
  (** Go: sort.SliceStable; called at pkg/webhook/parser.go:486 (and sort.Slice at pkg/crd/spec.go:141, where keys
      are distinct) *)
  Fixpoint insert_by (x : A) (l : list A) : list A :=
    match l with
    | [] => [x]
    | y :: l' => if lt y x then y :: insert_by x l' else x :: y :: l'
    end.
  (** Go: sort.SliceStable; called at pkg/webhook/parser.go:486 (and sort.Slice at pkg/crd/spec.go:141, where keys
      are distinct) *)
  Fixpoint sort_by (l : list A) : list A :=
    match l with
    | [] => []
    | x :: l' => insert_by x (sort_by l')
    end.
End Sort.

(** Go: [sort.Strings]. Called at pkg/rbac/parser.go:142 and pkg/crd/flatten.go:179. *)
Definition sort_strings : list string -> list string := sort_by str_ltb.

(** Removing duplicates, as collecting the keys of a set does (the order is irrelevant where
    the model uses it, because a sort follows). pkg/rbac/parser.go:131-141 and pkg/crd/flatten.go:170-177. *)
Fixpoint dedup (l : list string) : list string :=
  match l with
  | [] => []
  | x :: l' => if mem_str x l' then dedup l' else x :: dedup l'
  end.

(** ** Maps *)

Section Map.
  Variables K V : Type.
  Variable keqb : K -> K -> bool.

  (** Go: [v, ok := m[k]]. As at pkg/markers/collect.go:43-49. *)
  Fixpoint mget (m : list (K * V)) (k : K) : option V :=
    match m with
    | [] => None
    | (k', v) :: m' => if keqb k k' then Some v else mget m' k
    end.

  (** Go: [m[k] = v]. As at pkg/rbac/parser.go:238. *)
  Fixpoint mset (m : list (K * V)) (k : K) (v : V) : list (K * V) :=
    match m with
    | [] => [(k, v)]
    | (k', v') :: m' => if keqb k k' then (k', v) :: m' else (k', v') :: mset m' k v
    end.

  (** Go: [delete(m, k)]. As at pkg/crd/gen.go:112. *)
  Fixpoint mdel (m : list (K * V)) (k : K) : list (K * V) :=
    match m with
    | [] => []
    | (k', v') :: m' => if keqb k k' then m' else (k', v') :: mdel m' k
    end.
End Map.

(** Go: [m[k] = append(m[k], v)] on a map of slices. *)
Section MapApp.
  Variables K V : Type.
  Variable keqb : K -> K -> bool.
  (** Go: m[k] = append(m[k], v), as at pkg/rbac/parser.go:250 *)
  Fixpoint mapp (m : list (K * list V)) (k : K) (v : V) : list (K * list V) :=
    match m with
    | [] => [(k, [v])]
    | (k', vs) :: m' => if keqb k k' then (k', vs ++ [v]) :: m' else (k', vs) :: mapp m' k v
    end.
End MapApp.

(** The keys of a map, as at pkg/rbac/parser.go:303-306 *)
Definition mkeys {K V : Type} (m : list (K * V)) : list K := map fst m.

(** An order oracle for [range] over a map: any permutation of the entries. As at pkg/rbac/parser.go:247 and
    pkg/crd/schema_visitor.go:108. *)
Definition is_order {A : Type} (o : list A -> list A) : Prop :=
  forall l, Permutation (o l) l.
