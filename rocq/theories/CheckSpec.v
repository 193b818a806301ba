(** * The type checker of the loader: the claims' vocabulary *)

From Coq Require Import List Bool Arith.
Import ListNotations.
From Verif Require Import CheckModel.
Open Scope nat_scope.
Open Scope list_scope.

(** [q] is [p] or reached from it by references. *)
Inductive reach (refs : pkg -> list pkg) (p : pkg) : pkg -> Prop :=
| reach_here : reach refs p p
| reach_step q r : reach refs p q -> In r (refs q) -> reach refs p r.

(** Neither references nor imports have cycles. *)
Definition acyclic (refs imps : pkg -> list pkg) (rank : pkg -> nat) : Prop :=
  forall p q, In q (refs p) \/ In q (imps p) -> rank q < rank p.

(** What may have been done before: references of checked packages are checked,
    checked packages have types, no package is half-way, a package without types is
    not marked ill-typed. *)
Definition ready {R} (refs : pkg -> list pkg) (chk : list pkg) (ty : pkg -> types R) (il : pkg -> bool) : Prop :=
  (forall p q, In p chk -> In q (refs p) -> In q chk) /\
  (forall p, In p chk -> exists r, ty p = TFull R r) /\
  (forall p, ty p <> TPartial R) /\
  (forall p, ty p = TNone R -> il p = false).

(** The types a package should get, given the types some packages have already: those
    computed from the types of the packages it references; what the importer returns
    for its other imports is left open. *)
Inductive outcome {R} (refs imps : pkg -> list pkg) (result : pkg -> list (pkg * option R) -> R)
    (ty : pkg -> types R) : pkg -> R -> Prop :=
| outcome_had p r : ty p = TFull R r -> outcome refs imps result ty p r
| outcome_new p (f : pkg -> R) (l : list (pkg * option R)) :
    ty p = TNone R ->
    (forall q, In q (refs p) -> outcome refs imps result ty q (f q)) ->
    map fst l = imps p ->
    (forall q v, In (q, v) l -> In q (refs p) -> v = Some (f q)) ->
    outcome refs imps result ty p (result p l).

(** What go/types computes does not depend on imports that are not referenced. *)
Definition only_refs {R A} (refs : pkg -> list pkg) (g : pkg -> list (pkg * option R) -> A) : Prop :=
  forall p l l',
    Forall2 (fun a b => fst a = fst b /\ (In (fst a) (refs p) -> snd a = snd b)) l l' ->
    g p l = g p l'.

(** The packages entered in checkedPackages, by the log. *)
Fixpoint dones (l : list event) : list pkg :=
  match l with
  | [] => []
  | EDone p :: l' => p :: dones l'
  | _ :: l' => dones l'
  end.

(** How often [p] was found unchecked, type-checked, entered. *)
Fixpoint starts (p : pkg) (l : list event) : nat :=
  match l with
  | [] => 0
  | EStart q :: l' => (if Nat.eqb q p then 1 else 0) + starts p l'
  | _ :: l' => starts p l'
  end.
Fixpoint checks (p : pkg) (l : list event) : nat :=
  match l with
  | [] => 0
  | ECheck q :: l' => (if Nat.eqb q p then 1 else 0) + checks p l'
  | _ :: l' => checks p l'
  end.
