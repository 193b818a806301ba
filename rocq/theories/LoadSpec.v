(** * Sharing the root packages: the claims' vocabulary *)

From Coq Require Import String List Bool Arith Permutation.
Import ListNotations.
From Verif Require Import GoLib LoadModel.
Open Scope nat_scope.
Open Scope list_scope.

Definition imports (h : heap) (o : obj) (path : string) (x : obj) : Prop := mget String.eqb (h o) path = Some x.

(** [o] is a root or reached from one by imports. *)
Inductive reached (h : heap) (roots : list obj) : obj -> Prop :=
| reached_root r : In r roots -> reached h roots r
| reached_import o path x : reached h roots o -> imports h o path x -> reached h roots x.

(** Every import that names a root is the root. *)
Definition shared (id : obj -> string) (h : heap) (roots : list obj) : Prop :=
  forall o path x r, reached h roots o -> imports h o path x -> In r roots -> id r = path -> x = r.

(** Packages of one call of packages.Load only import packages of that call, and there
    is one for each path. *)
Definition loaded (h : heap) (load : obj -> nat) (tgt : nat -> string -> obj) : Prop :=
  forall o path x, imports h o path x -> x = tgt (load o) path /\ load x = load o.

(** The iteration order is some order. *)
Definition some_order (choose : nat -> list string -> list string) : Prop :=
  forall c l, Permutation l (choose c l).
