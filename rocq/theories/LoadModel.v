(** * Sharing the root packages

    Model of visitImports, pkg/loader/loader.go:610-625, and of the loop that calls it,
    loader.go:392-396.

    A loader.Package is a number, with its ID and its imports: a map from import paths
    to packages, [heap].  Package.Imports (loader.go:83-89) only makes that map on the
    first call, so that here it is there from the start.  The order in which a map is
    ranged over is the oracle [choose], asked anew each time. *)

From Coq Require Import String List Bool Arith.
Import ListNotations.
From Verif Require Import GoLib.
Open Scope string_scope.
Open Scope nat_scope.
Open Scope list_scope.

Definition obj := nat.
(** Package.imports of every package, pkg/loader/loader.go:72-91 *)
Definition heap := obj -> list (string * obj).

(** The lookup in seen, pkg/loader/loader.go:620 *)
Definition smem (k : string) (l : list string) : bool := existsb (String.eqb k) l.

(** pkg.Imports()[path] = root, pkg/loader/loader.go:617 *)
Definition set_edge (h : heap) (o : obj) (k : string) (r : obj) : heap :=
  fun x => if Nat.eqb x o then mset String.eqb (h o) k r else h x.

Section Visit.
Variable id : obj -> string.
Variable choose : nat -> list string -> list string.
Variable roots : list obj.

(** The imports and seen, pkg/loader/loader.go:610-627; and how often a map was ranged over *)
Record vstate := mkv { vheap : heap; vseen : list string; vcount : nat }.

(** loader.go:615-619: the last root with the path as its ID wins. *)
Fixpoint relink (rs : list obj) (o : obj) (k : string) (h : heap) : heap :=
  match rs with
  | [] => h
  | r :: rs' => relink rs' o k (if String.eqb k (id r) then set_edge h o k r else h)
  end.

(** loader.go:614-625.  [n] bounds the depth of the recursion. *)
Fixpoint visit (n : nat) (o : obj) (st : vstate) : option vstate :=
  match n with
  | 0 => None
  | S n' =>
      let step := fix step (ks : list string) (st : vstate) : option vstate :=
        match ks with
        | [] => Some st
        | k :: ks' =>
            match mget String.eqb (vheap st o) k with
            | None => step ks' st
            | Some imported =>
                let h1 := relink roots o k (vheap st) in
                if smem k (vseen st) then step ks' (mkv h1 (vseen st) (vcount st))
                else match visit n' imported (mkv h1 (k :: vseen st) (vcount st)) with
                     | Some st' => step ks' st'
                     | None => None
                     end
            end
        end in
      step (choose (vcount st) (map fst (vheap st o))) (mkv (vheap st) (vseen st) (S (vcount st)))
  end.

(** loader.go:392-396. *)
Fixpoint visit_all (n : nat) (rs : list obj) (h : heap) (c : nat) : option (heap * nat) :=
  match rs with
  | [] => Some (h, c)
  | r :: rs' =>
      match visit n r (mkv h [] c) with
      | Some st => visit_all n rs' (vheap st) (vcount st)
      | None => None
      end
  end.
End Visit.
