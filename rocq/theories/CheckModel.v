(** * The type checker of the loader

    Model of TypeChecker.Check and check, pkg/loader/refs.go:206-272, and of the part
    of Package.NeedTypesInfo and loader.typeCheck that the goroutines of one Check
    see of each other, pkg/loader/loader.go:91-99 and 225-305.

    A state is the pool of goroutines with their program counters, the packages'
    mutexes and the shared fields.  [exec i] lets goroutine [i] make one step; it has
    none if the goroutine is blocked or has ended.  A schedule is a list of
    goroutines.

    Simplifications: a package is a number; the mutex of the checker is held only
    around one access to checkedPackages, so that such an access is one step; what
    go/types computes is the oracle [result], a function of the package and of the
    imported packages as the importer returned them, and whether it reports errors
    the oracle [bad]; a package whose check has ended is complete.  Parsing the
    files (NeedSyntax) is not modelled here. *)

From Coq Require Import List Bool Arith.
Import ListNotations.
Open Scope nat_scope.
Open Scope list_scope.

Definition pkg := nat.

(** The lookups in checkedPackages and in the set of references, pkg/loader/refs.go:221-272 *)
Fixpoint mem (p : nat) (l : list nat) : bool :=
  match l with [] => false | q :: l' => Nat.eqb p q || mem p l' end.

(** Assignment to a field of one Package, pkg/loader/loader.go:226-306 *)
Definition upd {A} (f : nat -> A) (k : nat) (v : A) : nat -> A :=
  fun x => if Nat.eqb x k then v else f x.

(** No Go counterpart: one thread of the state changes; the goroutines are those of pkg/loader/refs.go:191-272 *)
Fixpoint set_nth {A} (i : nat) (x : A) (l : list A) : list A :=
  match i, l with
  | _, [] => []
  | 0, _ :: l' => x :: l'
  | S i', y :: l' => y :: set_nth i' x l'
  end.

Section Check.
Variable R : Type.
(** allReferencedPackages, in the order of the iteration over its map. *)
Variable refs : pkg -> list pkg.
(** The packages for which go/types calls the importer, in the order of the calls;
    loader.go:241-269. *)
Variable imps : pkg -> list pkg.
Variable result : pkg -> list (pkg * option R) -> R.
Variable bad : pkg -> list (pkg * option R) -> bool.

(** Where a goroutine in check is. *)
Inductive pc :=
| Lock                                              (* refs.go:243 root.Lock() *)
| Test                                              (* refs.go:246-251 *)
| Spawn (todo : list pkg)                           (* refs.go:253-263, packages left *)
| Wait                                              (* refs.go:264 wg.Wait() *)
| Types                                             (* loader.go:93-99, NeedTypesInfo *)
| Import (todo : list pkg) (seen : list (pkg * option R))   (* loader.go:260, about to lock an import *)
| Read (q : pkg) (todo : list pkg) (seen : list (pkg * option R)) (* loader.go:261-268, import locked *)
| Ill (seen : list (pkg * option R))                (* loader.go:289-299 *)
| Mark                                              (* refs.go:269-271 *)
| Unlock                                            (* refs.go:244, deferred *)
| Done                                              (* refs.go:260, deferred *)
| Exit.

Record thread := mkthread { tpkg : pkg; tpc : pc; twg : nat; tparent : option nat }.

(** Package.Types: not there, being checked, complete. Package.Types, set in pkg/loader/loader.go:226-306. *)
Inductive types := TNone | TPartial | TFull (r : R).

(** What can be observed: check found the package unchecked; typeCheck was called for
    it; it was entered in checkedPackages. What the theorems speak about: the calls in pkg/loader/refs.go:191-272. *)
Inductive event := EStart (p : pkg) | ECheck (p : pkg) | EDone (p : pkg).

(** The memory shared by callers of pkg/loader/refs.go:191-272 *)
Record state := mkstate {
  threads : list thread;
  held : pkg -> bool;           (* Package.Mutex *)
  checked : list pkg;           (* TypeChecker.checkedPackages *)
  typ : pkg -> types;           (* Package.Types; TypesInfo is nil iff TNone *)
  ill : pkg -> bool;            (* Package.IllTyped *)
  log : list event }.           (* newest first *)

(** No Go counterpart: the thread goes on to the next step of pkg/loader/refs.go:191-272 *)
Definition goto (i : nat) (t : thread) (c : pc) (ts : list thread) : list thread :=
  set_nth i (mkthread (tpkg t) c (twg t) (tparent t)) ts.

(** One step of one thread of pkg/loader/refs.go:191-272 *)
Definition exec (i : nat) (s : state) : option state :=
  match nth_error (threads s) i with
  | None => None
  | Some t =>
    let p := tpkg t in
    let ts := threads s in
    match tpc t with
    | Lock =>
        if held s p then None
        else Some (mkstate (goto i t Test ts) (upd (held s) p true) (checked s) (typ s) (ill s) (log s))
    | Test =>
        if mem p (checked s)
        then Some (mkstate (goto i t Unlock ts) (held s) (checked s) (typ s) (ill s) (log s))
        else Some (mkstate (goto i t (Spawn (refs p)) ts) (held s) (checked s) (typ s) (ill s) (EStart p :: log s))
    | Spawn [] => Some (mkstate (goto i t Wait ts) (held s) (checked s) (typ s) (ill s) (log s))
    | Spawn (q :: todo) =>
        Some (mkstate (set_nth i (mkthread p (Spawn todo) (S (twg t)) (tparent t)) ts
                       ++ [mkthread q Lock 0 (Some i)])
                      (held s) (checked s) (typ s) (ill s) (log s))
    | Wait =>
        match twg t with
        | 0 => Some (mkstate (goto i t Types ts) (held s) (checked s) (typ s) (ill s) (log s))
        | S _ => None
        end
    | Types =>
        match typ s p with
        | TNone => Some (mkstate (goto i t (Import (imps p) []) ts) (held s) (checked s)
                                 (upd (typ s) p TPartial) (ill s) (ECheck p :: log s))
        | _ => Some (mkstate (goto i t Mark ts) (held s) (checked s) (typ s) (ill s) (log s))
        end
    | Import [] seen => Some (mkstate (goto i t (Ill seen) ts) (held s) (checked s) (typ s) (ill s) (log s))
    | Import (q :: todo) seen =>
        if held s q then None
        else Some (mkstate (goto i t (Read q todo seen) ts) (upd (held s) q true) (checked s) (typ s) (ill s) (log s))
    | Read q todo seen =>
        let got := match typ s q with TFull r => Some r | _ => None end in
        Some (mkstate (goto i t (Import todo (seen ++ [(q, got)])) ts) (upd (held s) q false)
                      (checked s) (typ s) (ill s) (log s))
    | Ill seen =>
        Some (mkstate (goto i t Mark ts) (held s) (checked s)
                      (upd (typ s) p (TFull (result p seen)))
                      (upd (ill s) p (bad p seen || existsb (ill s) (imps p))) (log s))
    | Mark => Some (mkstate (goto i t Unlock ts) (held s) (p :: checked s) (typ s) (ill s) (EDone p :: log s))
    | Unlock => Some (mkstate (goto i t Done ts) (upd (held s) p false) (checked s) (typ s) (ill s) (log s))
    | Done =>
        let ts1 := goto i t Exit ts in
        Some (mkstate (match tparent t with
                       | Some j => match nth_error ts1 j with
                                   | Some u => set_nth j (mkthread (tpkg u) (tpc u) (pred (twg u)) (tparent u)) ts1
                                   | None => ts1
                                   end
                       | None => ts1
                       end) (held s) (checked s) (typ s) (ill s) (log s))
    | Exit => None
    end
  end.

(** Check, refs.go:208-216: one goroutine, on the checker's packages. *)
Definition start (root : pkg) (chk : list pkg) (ty : pkg -> types) (il : pkg -> bool) : state :=
  mkstate [mkthread root Lock 0 None] (fun _ => false) chk ty il [].

(** The state after a schedule; None if one of its steps is not possible. A schedule of steps of
    pkg/loader/refs.go:191-272. *)
Fixpoint runs (sched : list nat) (s : state) : option state :=
  match sched with
  | [] => Some s
  | i :: r => match exec i s with Some s' => runs r s' | None => None end
  end.

(** The return of pkg/loader/refs.go:191-272 *)
Definition exited (t : thread) : bool := match tpc t with Exit => true | _ => false end.

(** Check has returned. The return of pkg/loader/refs.go:191-272. *)
Definition over (s : state) : Prop := forallb exited (threads s) = true.

End Check.
