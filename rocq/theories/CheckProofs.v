(** * The type checker of the loader: invariants *)

From Coq Require Import List Bool Arith Lia.
Import ListNotations.
From Verif Require Import CheckModel CheckSpec.
Open Scope nat_scope.
Open Scope list_scope.

(** ** Lists *)

Fixpoint total {A} (f : A -> nat) (l : list A) : nat :=
  match l with [] => 0 | x :: l' => f x + total f l' end.

Lemma total_set {A} (f : A -> nat) i x y l :
  nth_error l i = Some x -> total f (set_nth i y l) + f x = total f l + f y.
Proof.
  revert i. induction l as [|z l IH]; intros [|i] H; cbn in *; try discriminate H.
  - injection H as ->. lia.
  - specialize (IH i H). lia.
Qed.

Lemma total_app {A} (f : A -> nat) l l' : total f (l ++ l') = total f l + total f l'.
Proof. induction l as [|z l IH]; cbn; lia. Qed.

Lemma total_one {A} (f : A -> nat) i x l : nth_error l i = Some x -> f x <= total f l.
Proof.
  revert i. induction l as [|z l IH]; intros [|i] H; cbn in *; try discriminate H.
  - injection H as ->. lia.
  - specialize (IH i H). lia.
Qed.

Lemma total_two {A} (f : A -> nat) i j x y l :
  i <> j -> nth_error l i = Some x -> nth_error l j = Some y -> f x + f y <= total f l.
Proof.
  revert i j. induction l as [|z l IH]; intros [|i] [|j] Hij Hi Hj; cbn in *; try discriminate.
  - easy.
  - injection Hi as ->. assert (X := total_one f j y l Hj). lia.
  - injection Hj as ->. assert (X := total_one f i x l Hi). lia.
  - assert (i <> j) by lia. specialize (IH i j H Hi Hj). lia.
Qed.

Lemma total_some {A} (f : A -> nat) l : total f l <> 0 -> exists i x, nth_error l i = Some x /\ f x <> 0.
Proof.
  induction l as [|z l IH]; cbn; intros H; [lia|].
  destruct (f z) as [|m] eqn:E.
  - destruct IH as (i & x & Hi & Hx); [lia|]. now exists (S i), x.
  - exists 0, z. split; [easy|]. lia.
Qed.

Lemma total_zero {A} (f : A -> nat) l : (forall i x, nth_error l i = Some x -> f x = 0) -> total f l = 0.
Proof.
  intros H. destruct (total f l) eqn:E; [easy|]. destruct (total_some f l) as (i & x & Hi & Hx); [lia|].
  exfalso. apply Hx. eauto.
Qed.

Lemma nth_set {A} i j (x : A) l y :
  nth_error (set_nth i x l) j = Some y ->
  (j = i /\ y = x) \/ (j <> i /\ nth_error l j = Some y).
Proof.
  revert i j. induction l as [|z l IH]; intros [|i] [|j] H; cbn in *; try discriminate H.
  - injection H as ->. now left.
  - right. easy.
  - right. easy.
  - destruct (IH i j H) as [(-> & ->)|(X & Y)]; [now left|right]. split; [lia|easy].
Qed.

Lemma nth_set_same {A} i (x y : A) l : nth_error l i = Some y -> nth_error (set_nth i x l) i = Some x.
Proof. revert i. induction l as [|z l IH]; intros [|i] H; cbn in *; try discriminate H; [easy|now apply IH]. Qed.

Lemma nth_set_other {A} i j (x : A) l : i <> j -> nth_error (set_nth i x l) j = nth_error l j.
Proof. revert i j. induction l as [|z l IH]; intros [|i] [|j] H; cbn; try easy. apply IH. lia. Qed.

Lemma len_set {A} i (x : A) l : List.length (set_nth i x l) = List.length l.
Proof. revert i. induction l as [|z l IH]; intros [|i]; cbn; try easy. now rewrite IH. Qed.

Lemma mem_in p l : mem p l = true <-> In p l.
Proof.
  induction l as [|q l IH]; cbn; [easy|]. rewrite orb_true_iff, Nat.eqb_eq, IH. intuition.
Qed.

Lemma upd_same {A} (f : nat -> A) k v : upd f k v k = v.
Proof. unfold upd. now rewrite Nat.eqb_refl. Qed.
Lemma upd_other {A} (f : nat -> A) k v x : x <> k -> upd f k v x = f x.
Proof. unfold upd. intros H. apply Nat.eqb_neq in H. now rewrite H. Qed.

Lemma nth_error_app_cases {A} (l : list A) x j y :
  nth_error (l ++ [x]) j = Some y -> nth_error l j = Some y \/ (j = List.length l /\ y = x).
Proof.
  intros H. destruct (Nat.lt_ge_cases j (List.length l)) as [Hj|Hj].
  - left. now rewrite nth_error_app1 in H.
  - right. rewrite nth_error_app2 in H by easy. destruct (j - List.length l) as [|k] eqn:E.
    + cbn in H. injection H as <-. split; [lia|easy].
    + cbn in H. destruct k; discriminate H.
Qed.

Lemma in_dones p l : In p (dones l) <-> In (EDone p) l.
Proof.
  induction l as [|e l IH]; cbn; [easy|]. destruct e; cbn; rewrite IH; split; try tauto.
  - intros [H|H]; [discriminate H|easy].
  - intros [H|H]; [discriminate H|easy].
  - intros [->|H]; tauto.
  - intros [[= ->]|H]; tauto.
Qed.

Lemma total_ext {A} (f g : A -> nat) l : (forall x, In x l -> f x = g x) -> total f l = total g l.
Proof.
  induction l as [|x l IH]; intros H; cbn; [easy|]. rewrite (H x) by now left. rewrite IH; [easy|]. intros y Hy. apply H. now right.
Qed.

Section Inv.
Variable R : Type.
Variable refs imps : pkg -> list pkg.
Variable result : pkg -> list (pkg * option R) -> R.
Variable bad : pkg -> list (pkg * option R) -> bool.
Variable rank : pkg -> nat.
Hypothesis Hrank : acyclic refs imps rank.
Variable root : pkg.
Variable chk0 : list pkg.
Variable ty0 : pkg -> types R.
Variable il0 : pkg -> bool.
Hypothesis Hready : ready refs chk0 ty0 il0.

Notation state := (state R).
Notation thread := (thread R).
Notation pc := (pc R).
Notation exec := (exec R refs imps result bad).
Notation runs := (runs R refs imps result bad).
Notation outcome := (outcome refs imps result ty0).

(** The ways a step can go. *)
Inductive did (i : nat) (s : state) : state -> Prop :=
| did_lock p wg par :
    nth_error (threads R s) i = Some (mkthread R p (Lock R) wg par) -> held R s p = false ->
    did i s (mkstate R (set_nth i (mkthread R p (Test R) wg par) (threads R s)) (upd (held R s) p true)
               (checked R s) (typ R s) (ill R s) (log R s))
| did_known p wg par :
    nth_error (threads R s) i = Some (mkthread R p (Test R) wg par) -> In p (checked R s) ->
    did i s (mkstate R (set_nth i (mkthread R p (Unlock R) wg par) (threads R s)) (held R s)
               (checked R s) (typ R s) (ill R s) (log R s))
| did_start p wg par :
    nth_error (threads R s) i = Some (mkthread R p (Test R) wg par) -> ~ In p (checked R s) ->
    did i s (mkstate R (set_nth i (mkthread R p (Spawn R (refs p)) wg par) (threads R s)) (held R s)
               (checked R s) (typ R s) (ill R s) (EStart p :: log R s))
| did_spawned p wg par :
    nth_error (threads R s) i = Some (mkthread R p (Spawn R []) wg par) ->
    did i s (mkstate R (set_nth i (mkthread R p (Wait R) wg par) (threads R s)) (held R s)
               (checked R s) (typ R s) (ill R s) (log R s))
| did_spawn p wg par q todo :
    nth_error (threads R s) i = Some (mkthread R p (Spawn R (q :: todo)) wg par) ->
    did i s (mkstate R (set_nth i (mkthread R p (Spawn R todo) (S wg) par) (threads R s)
                        ++ [mkthread R q (Lock R) 0 (Some i)]) (held R s)
               (checked R s) (typ R s) (ill R s) (log R s))
| did_waited p par :
    nth_error (threads R s) i = Some (mkthread R p (Wait R) 0 par) ->
    did i s (mkstate R (set_nth i (mkthread R p (Types R) 0 par) (threads R s)) (held R s)
               (checked R s) (typ R s) (ill R s) (log R s))
| did_check p wg par :
    nth_error (threads R s) i = Some (mkthread R p (Types R) wg par) -> typ R s p = TNone R ->
    did i s (mkstate R (set_nth i (mkthread R p (Import R (imps p) []) wg par) (threads R s)) (held R s)
               (checked R s) (upd (typ R s) p (TPartial R)) (ill R s) (ECheck p :: log R s))
| did_skip p wg par :
    nth_error (threads R s) i = Some (mkthread R p (Types R) wg par) -> typ R s p <> TNone R ->
    did i s (mkstate R (set_nth i (mkthread R p (Mark R) wg par) (threads R s)) (held R s)
               (checked R s) (typ R s) (ill R s) (log R s))
| did_imported p wg par seen :
    nth_error (threads R s) i = Some (mkthread R p (Import R [] seen) wg par) ->
    did i s (mkstate R (set_nth i (mkthread R p (Ill R seen) wg par) (threads R s)) (held R s)
               (checked R s) (typ R s) (ill R s) (log R s))
| did_import p wg par q todo seen :
    nth_error (threads R s) i = Some (mkthread R p (Import R (q :: todo) seen) wg par) -> held R s q = false ->
    did i s (mkstate R (set_nth i (mkthread R p (Read R q todo seen) wg par) (threads R s)) (upd (held R s) q true)
               (checked R s) (typ R s) (ill R s) (log R s))
| did_read p wg par q todo seen :
    nth_error (threads R s) i = Some (mkthread R p (Read R q todo seen) wg par) ->
    did i s (mkstate R (set_nth i (mkthread R p (Import R todo
                 (seen ++ [(q, match typ R s q with TFull _ r => Some r | _ => None end)])) wg par) (threads R s))
               (upd (held R s) q false) (checked R s) (typ R s) (ill R s) (log R s))
| did_ill p wg par seen :
    nth_error (threads R s) i = Some (mkthread R p (Ill R seen) wg par) ->
    did i s (mkstate R (set_nth i (mkthread R p (Mark R) wg par) (threads R s)) (held R s)
               (checked R s) (upd (typ R s) p (TFull R (result p seen)))
               (upd (ill R s) p (bad p seen || existsb (ill R s) (imps p))) (log R s))
| did_mark p wg par :
    nth_error (threads R s) i = Some (mkthread R p (Mark R) wg par) ->
    did i s (mkstate R (set_nth i (mkthread R p (Unlock R) wg par) (threads R s)) (held R s)
               (p :: checked R s) (typ R s) (ill R s) (EDone p :: log R s))
| did_unlock p wg par :
    nth_error (threads R s) i = Some (mkthread R p (Unlock R) wg par) ->
    did i s (mkstate R (set_nth i (mkthread R p (Done R) wg par) (threads R s)) (upd (held R s) p false)
               (checked R s) (typ R s) (ill R s) (log R s))
| did_end p wg :
    nth_error (threads R s) i = Some (mkthread R p (Done R) wg None) ->
    did i s (mkstate R (set_nth i (mkthread R p (Exit R) wg None) (threads R s)) (held R s)
               (checked R s) (typ R s) (ill R s) (log R s))
| did_done p wg j u :
    nth_error (threads R s) i = Some (mkthread R p (Done R) wg (Some j)) -> j <> i ->
    nth_error (threads R s) j = Some u ->
    did i s (mkstate R (set_nth j (mkthread R (tpkg R u) (tpc R u) (pred (twg R u)) (tparent R u))
                 (set_nth i (mkthread R p (Exit R) wg (Some j)) (threads R s))) (held R s)
               (checked R s) (typ R s) (ill R s) (log R s)).

(** The tree of goroutines. *)
Record tree (s : state) : Prop := {
  t_parent : forall j u i, nth_error (threads R s) j = Some u -> tparent R u = Some i ->
    exists t, nth_error (threads R s) i = Some t /\ In (tpkg R u) (refs (tpkg R t));
  t_root : exists t, nth_error (threads R s) 0 = Some t /\ tpkg R t = root;
  t_reach : forall i t, nth_error (threads R s) i = Some t -> reach refs root (tpkg R t);
  t_spawn : forall i t todo, nth_error (threads R s) i = Some t -> tpc R t = Spawn R todo ->
    exists dn, refs (tpkg R t) = dn ++ todo }.

Lemma exec_did i s s' : tree s -> exec i s = Some s' -> did i s s'.
Proof.
  intros T H. unfold CheckModel.exec in H.
  destruct (nth_error (threads R s) i) as [t|] eqn:Ht; [|discriminate H].
  destruct t as [p c wg par]. cbn [tpkg tpc twg tparent] in H. unfold goto in H. cbn [tpkg tpc twg tparent] in H.
  destruct c as [| |todo| | |todo seen|q todo seen|seen| | | |].
  - destruct (held R s p) eqn:E; [discriminate H|]. injection H as <-. now apply did_lock.
  - destruct (mem p (checked R s)) eqn:E; injection H as <-.
    + apply mem_in in E. now apply did_known.
    + apply did_start; [easy|]. rewrite <- mem_in. now rewrite E.
  - destruct todo as [|q todo]; injection H as <-; [now apply did_spawned|now apply did_spawn].
  - destruct wg; [|discriminate H]. injection H as <-. now apply did_waited.
  - destruct (typ R s p) eqn:E; injection H as <-.
    + now apply did_check.
    + apply did_skip; [easy|]. now rewrite E.
    + apply did_skip; [easy|]. now rewrite E.
  - destruct todo as [|q todo]; [injection H as <-; now apply did_imported|].
    destruct (held R s q) eqn:E; [discriminate H|]. injection H as <-. now apply did_import.
  - injection H as <-. now apply did_read.
  - injection H as <-. now apply did_ill.
  - injection H as <-. now apply did_mark.
  - injection H as <-. now apply did_unlock.
  - injection H as <-. destruct par as [j|]; [|now apply did_end].
    destruct (t_parent s T _ _ _ Ht eq_refl) as (u & Hu & Hin). cbn [tpkg] in Hin.
    assert (Hij : j <> i).
    { intros ->. rewrite Ht in Hu. injection Hu as <-. cbn in Hin. assert (X := Hrank p p (or_introl Hin)). lia. }
    rewrite nth_set_other by congruence. rewrite Hu. now apply did_done.
  - discriminate H.
Qed.

(** A thread of the new state is an old one, unless it is the one that stepped, its
    parent or its child. *)
Ltac old H := apply nth_set in H; destruct H as [(-> & ->)|(? & H)].
Ltac oldapp H := apply nth_error_app_cases in H; destruct H as [H|(-> & ->)]; [old H|].

(** [same s s']: the threads of s are in s' with their packages and parents. *)
Lemma did_keeps i s s' : did i s s' ->
  forall j u, nth_error (threads R s) j = Some u ->
  exists u', nth_error (threads R s') j = Some u' /\ tpkg R u' = tpkg R u /\ tparent R u' = tparent R u.
Proof.
  intros D j u Hu.
  assert (G : forall c wg p par, nth_error (threads R s) i = Some (mkthread R p c wg par) -> forall c' wg' rest,
    exists u', nth_error (set_nth i (mkthread R p c' wg' par) (threads R s) ++ rest) j = Some u' /\
               tpkg R u' = tpkg R u /\ tparent R u' = tparent R u).
  { intros c wg p par Hi c' wg' rest. destruct (Nat.eq_dec j i) as [->|Hj].
    - rewrite Hi in Hu. injection Hu as <-. exists (mkthread R p c' wg' par). split; [|easy].
      rewrite nth_error_app1; [now apply (nth_set_same _ _ _ _ Hi)|].
      rewrite len_set. apply nth_error_Some. congruence.
    - exists u. split; [|easy]. rewrite nth_error_app1.
      + rewrite nth_set_other by congruence; exact Hu.
      + rewrite len_set. apply nth_error_Some. congruence. }
  destruct D as [p wg par Hi _|p wg par Hi _|p wg par Hi _|p wg par Hi|p wg par q todo Hi|p par Hi|p wg par Hi _
    |p wg par Hi _|p wg par seen Hi|p wg par q todo seen Hi _|p wg par q todo seen Hi|p wg par seen Hi|p wg par Hi
    |p wg par Hi|p wg Hi|p wg k v Hi Hk Hv]; cbn [threads];
    try (specialize (G _ _ _ _ Hi); rewrite <- (app_nil_r (set_nth _ _ _)); apply G).
  - apply (G _ _ _ _ Hi).
  - destruct (Nat.eq_dec j k) as [->|Hj].
    + rewrite Hv in Hu. injection Hu as ->. exists (mkthread R (tpkg R u) (tpc R u) (pred (twg R u)) (tparent R u)).
      split; [|easy]. apply (nth_set_same _ _ u). now rewrite nth_set_other by congruence.
    + rewrite nth_set_other by congruence. destruct (G _ _ _ _ Hi (Exit R) wg []) as (u' & X). rewrite app_nil_r in X. now exists u'.
Qed.

Ltac cases D := destruct D as [p wg par Hi Hh|p wg par Hi Hc|p wg par Hi Hc|p wg par Hi|p wg par q todo Hi|p par Hi
    |p wg par Hi Ht|p wg par Hi Ht|p wg par seen Hi|p wg par q todo seen Hi Hh|p wg par q todo seen Hi|p wg par seen Hi
    |p wg par Hi|p wg par Hi|p wg Hi|p wg k v Hi Hk Hv].

Ltac self Hu Hi :=
  cbn [threads] in Hu;
  first [ rewrite (nth_set_same _ _ _ _ Hi) in Hu
        | rewrite nth_error_app1 in Hu by (rewrite len_set; apply nth_error_Some; congruence);
          rewrite (nth_set_same _ _ _ _ Hi) in Hu
        | rewrite nth_set_other in Hu by congruence; rewrite (nth_set_same _ _ _ _ Hi) in Hu ];
  injection Hu as <-.

(** A thread of the new state comes from one of the old, or is the child spawned. *)
Lemma did_from i s s' : did i s s' -> forall j u, nth_error (threads R s') j = Some u ->
  (exists u0, nth_error (threads R s) j = Some u0 /\ tpkg R u = tpkg R u0 /\ tparent R u = tparent R u0 /\
     (j <> i -> tpc R u = tpc R u0)) \/
  (u = mkthread R (tpkg R u) (Lock R) 0 (Some i) /\ j = List.length (threads R s) /\
   exists t todo, nth_error (threads R s) i = Some t /\ tpc R t = Spawn R (tpkg R u :: todo)).
Proof.
  intros D j u Hu. cases D; cbn [threads] in Hu;
    try (left; old Hu; [eexists; split; [eassumption|easy]|exists u; easy]; fail).
  - apply nth_error_app_cases in Hu. destruct Hu as [Hu|(-> & ->)].
    + left. old Hu; [eexists; split; [eassumption|easy]|exists u; easy].
    + right. rewrite len_set. cbn. split; [easy|]. split; [easy|]. now exists (mkthread R p (Spawn R (q :: todo)) wg par), todo.
  - left. old Hu; [exists v; easy|]. old Hu; [eexists; split; [eassumption|easy]|exists u; easy].
Qed.

Lemma did_tree i s s' : tree s -> did i s s' -> tree s'.
Proof.
  intros T D. assert (K := did_keeps i s s' D). assert (N := did_from i s s' D). constructor.
  - intros j u k Hu Hp. destruct (N j u Hu) as [(u0 & H0 & E1 & E2 & _)|(E & _ & t & todo & Ht & Es)].
    + rewrite E2 in Hp. destruct (t_parent s T j u0 k H0 Hp) as (t & Ht & Hin).
      destruct (K k t Ht) as (t' & Ht' & Ep & _). exists t'. split; [easy|]. congruence.
    + rewrite E in Hp. cbn in Hp. injection Hp as <-. destruct (K i t Ht) as (t' & Ht' & Ep & _).
      exists t'. split; [easy|]. rewrite Ep. destruct (t_spawn s T i t _ Ht Es) as (dn & ->).
      apply in_or_app. right. now left.
  - destruct (t_root s T) as (t & Ht & E). destruct (K 0 t Ht) as (t' & Ht' & Ep & _). exists t'. now rewrite Ep.
  - intros j u Hu. destruct (N j u Hu) as [(u0 & H0 & E1 & _)|(E & _ & t & todo & Ht & Es)].
    + rewrite E1. now apply (t_reach s T j).
    + apply (reach_step _ _ (tpkg R t)); [now apply (t_reach s T i)|].
      destruct (t_spawn s T i t _ Ht Es) as (dn & ->). apply in_or_app. right. now left.
  - intros j u todo' Hu Es. destruct (Nat.eq_dec j i) as [->|Hj].
    + cases D; cbn [threads] in Hu;
        try (rewrite (nth_set_same _ _ _ _ Hi) in Hu; injection Hu as <-; cbn in Es; try discriminate Es).
      * injection Es as <-. now exists [].
      * rewrite nth_error_app1 in Hu by (rewrite len_set; apply nth_error_Some; congruence).
        rewrite (nth_set_same _ _ _ _ Hi) in Hu. injection Hu as <-. cbn in Es |- *. injection Es as <-.
        destruct (t_spawn s T i _ _ Hi eq_refl) as (dn & E). cbn in E. exists (dn ++ [q]). now rewrite <- app_assoc.
      * rewrite nth_set_other in Hu by easy. rewrite (nth_set_same _ _ _ _ Hi) in Hu. injection Hu as <-. discriminate Es.
    + destruct (N j u Hu) as [(u0 & H0 & E1 & _ & E3)|(E & _)].
      * rewrite E1. apply (t_spawn s T j); [easy|]. now rewrite <- E3.
      * rewrite E in Es. discriminate Es.
Qed.

(** ** Locks *)

Definition one (b : bool) : nat := if b then 1 else 0.
Definition own (c : pc) : bool := match c with Lock _ | Done _ | Exit _ => false | _ => true end.
Definition reads (p : pkg) (c : pc) : nat := match c with Read _ q _ _ => one (Nat.eqb q p) | _ => 0 end.
Definition holds (p : pkg) (t : thread) : nat := one (own (tpc R t) && Nat.eqb (tpkg R t) p) + reads p (tpc R t).

Definition locked (s : state) : Prop := forall p, total (holds p) (threads R s) = one (held R s p).

Ltac tot f Hi := match type of Hi with nth_error ?l ?i = Some ?x =>
  match goal with |- context[set_nth i ?y l] => 
    let X := fresh "X" in assert (X := total_set f i x y l Hi) end end.

Lemma did_locked i s s' : locked s -> did i s s' -> locked s'.
Proof.
  intros L D x. assert (Lx := L x). cases D; cbn [threads held].
  5: rewrite total_app; cbn [total].
  all: tot (holds x) Hi.
  16: { rewrite <- (nth_set_other i k (mkthread R p (Exit R) wg (Some k))) in Hv by congruence. tot (holds x) Hv.
        unfold holds in X, X0; cbn [tpc tpkg own reads andb one] in X, X0; fold (holds x) in X, X0. lia. }
  all: unfold holds in X; cbn [tpc tpkg own reads andb one] in X; fold (holds x) in X.
  all: unfold upd; rewrite ?(Nat.eqb_sym x).
  - destruct (Nat.eqb_spec p x) as [->|]; cbn [one] in *; [rewrite Hh in Lx|]; cbn [one] in *; lia.
  - lia.
  - lia.
  - lia.
  - unfold holds at 2. cbn [tpc tpkg own reads andb one]. lia.
  - lia.
  - lia.
  - lia.
  - lia.
  - destruct (Nat.eqb_spec q x) as [->|]; cbn [one] in *; [rewrite Hh in Lx|]; cbn [one] in *; lia.
  - destruct (Nat.eqb_spec q x) as [->|]; cbn [one] in *; [|lia]. destruct (held R s x); cbn [one] in *; lia.
  - lia.
  - lia.
  - destruct (Nat.eqb_spec p x) as [->|]; cbn [one] in *; [|lia]. destruct (held R s x); cbn [one] in *; lia.
  - lia.
Qed.

(** Two goroutines do not hold the same lock, and a goroutine that holds its own does
    not hold it as that of an import. *)
Lemma alone s i t j u : locked s -> nth_error (threads R s) i = Some t -> nth_error (threads R s) j = Some u ->
  own (tpc R t) = true -> own (tpc R u) = true -> tpkg R t = tpkg R u -> i = j.
Proof.
  intros L Hi Hj Ht Hu E. destruct (Nat.eq_dec i j) as [|Hne]; [easy|].
  assert (X := total_two (holds (tpkg R t)) i j t u _ Hne Hi Hj). rewrite (L (tpkg R t)) in X.
  unfold holds in X. rewrite Ht, Hu, <- E, Nat.eqb_refl in X. cbn in X. destruct (held R s (tpkg R t)); cbn in X; lia.
Qed.

(** ** The log and the packages checked *)

Definition started (c : pc) : bool :=
  match c with Spawn _ _ | Wait _ | Types _ | Import _ _ _ | Read _ _ _ _ | Ill _ _ | Mark _ => true | _ => false end.
Definition gone (c : pc) : bool := match c with Unlock _ | Done _ | Exit _ => true | _ => false end.
Definition busy (p : pkg) (t : thread) : nat := one (started (tpc R t) && Nat.eqb (tpkg R t) p).
Definition live (i : nat) (t : thread) : nat :=
  match tparent R t with Some j => one (Nat.eqb j i && negb (exited R t)) | None => 0 end.

Record logged (s : state) : Prop := {
  l_starts : forall p, starts p (log R s) = total (busy p) (threads R s) + count_occ Nat.eq_dec (dones (log R s)) p;
  l_checked : checked R s = dones (log R s) ++ chk0;
  l_fresh : forall i t, nth_error (threads R s) i = Some t -> started (tpc R t) = true -> ~ In (tpkg R t) (checked R s);
  l_gone : forall i t, nth_error (threads R s) i = Some t -> gone (tpc R t) = true -> In (tpkg R t) (checked R s);
  l_nodup : NoDup (dones (log R s));
  l_new : forall p, In p (dones (log R s)) -> ~ In p chk0;
  l_reach : forall p, In (EStart p) (log R s) \/ In (ECheck p) (log R s) \/ In (EDone p) (log R s) -> reach refs root p }.

Lemma did_logged i s s' : tree s -> locked s -> logged s -> did i s s' -> logged s'.
Proof.
  intros T L G D.
  assert (Hold : forall j u, j <> i -> nth_error (threads R s') j = Some u ->
    tpc R u = Lock R \/ exists u0, nth_error (threads R s) j = Some u0 /\ tpkg R u = tpkg R u0 /\ tpc R u = tpc R u0).
  { intros j u Hj Hu. destruct (did_from i s s' D j u Hu) as [(u0 & H0 & E1 & _ & E3)|(E & _)].
    - right. exists u0. split; [easy|]. split; [easy|]. now apply E3.
    - left. now rewrite E. }
  assert (Hsub : forall p, In p (checked R s) -> In p (checked R s')).
  { intros x Hp. cases D; cbn; try easy. now right. }
  assert (Hone : forall t, nth_error (threads R s) i = Some t -> reach refs root (tpkg R t)) by (intros t; apply (t_reach s T)).
  constructor.
  - intros x. assert (Lx := l_starts s G x). cases D; cbn [threads log starts dones].
    5: rewrite total_app; cbn [total].
    all: tot (busy x) Hi.
    16: { rewrite <- (nth_set_other i k (mkthread R p (Exit R) wg (Some k))) in Hv by congruence. tot (busy x) Hv.
          unfold busy in X, X0; cbn [tpc tpkg started andb one] in X, X0; fold (busy x) in X, X0. lia. }
    all: unfold busy in X; cbn [tpc tpkg started andb one] in X; fold (busy x) in X; try lia.
    + unfold one in X. lia.
    + unfold busy at 2. cbn. lia.
    + cbn [count_occ]. unfold one in X. destruct (Nat.eq_dec p x) as [->|Hn].
      * rewrite Nat.eqb_refl in X. lia.
      * apply Nat.eqb_neq in Hn. rewrite Hn in X. lia.
  - assert (X := l_checked s G). cases D; cbn; try easy. now rewrite X.
  - intros j u Hu Es. destruct (Nat.eq_dec j i) as [->|Hj].
    + cases D; cbn [threads checked] in Hu |- *;
        try (rewrite (nth_set_same _ _ _ _ Hi) in Hu; injection Hu as <-; cbn in Es |- *; try discriminate Es;
             try (apply (l_fresh s G i _ Hi eq_refl)); try easy).
      * rewrite nth_error_app1 in Hu by (rewrite len_set; apply nth_error_Some; congruence).
        rewrite (nth_set_same _ _ _ _ Hi) in Hu. injection Hu as <-. apply (l_fresh s G i _ Hi eq_refl).
      * rewrite nth_set_other in Hu by easy. rewrite (nth_set_same _ _ _ _ Hi) in Hu. injection Hu as <-. discriminate Es.
    + destruct (Hold j u Hj Hu) as [E|(u0 & H0 & E1 & E2)]; [rewrite E in Es; discriminate Es|].
      rewrite E1. rewrite E2 in Es. assert (F := l_fresh s G j u0 H0 Es).
      cases D; cbn [checked]; try exact F. intros [X|X]; [|easy].
      apply Hj. symmetry. eapply (alone s); eauto. now destruct (tpc R u0).
  - intros j u Hu Es. destruct (Nat.eq_dec j i) as [->|Hj].
    + cases D; cbn [threads checked] in Hu |- *;
        try (rewrite (nth_set_same _ _ _ _ Hi) in Hu; injection Hu as <-; cbn in Es |- *; try discriminate Es;
             try (apply (l_gone s G i _ Hi eq_refl)); try easy).
      * rewrite nth_error_app1 in Hu by (rewrite len_set; apply nth_error_Some; congruence).
        rewrite (nth_set_same _ _ _ _ Hi) in Hu. injection Hu as <-. discriminate Es.
      * now left.
      * rewrite nth_set_other in Hu by easy. rewrite (nth_set_same _ _ _ _ Hi) in Hu. injection Hu as <-.
        apply (l_gone s G i _ Hi eq_refl).
    + destruct (Hold j u Hj Hu) as [E|(u0 & H0 & E1 & E2)]; [rewrite E in Es; discriminate Es|].
      rewrite E1. rewrite E2 in Es. apply Hsub. now apply (l_gone s G j).
  - assert (X := l_nodup s G). cases D; cbn; try exact X. constructor; [|exact X].
    intros Hp. apply (l_fresh s G i _ Hi eq_refl). cbn. rewrite (l_checked s G). apply in_or_app. now left.
  - assert (X := l_new s G). cases D; cbn; try exact X. intros x [->|Hx]; [|now apply X].
    intros Hp. apply (l_fresh s G i _ Hi eq_refl). cbn. rewrite (l_checked s G). apply in_or_app. now right.
  - intros x Hx. assert (X := l_reach s G x). cases D; cbn in Hx; try (now apply X); specialize (Hone _ Hi); cbn in Hone;
      destruct Hx as [[Hx|Hx]|[[Hx|Hx]|[Hx|Hx]]]; try discriminate Hx; try (injection Hx as <-; exact Hone); tauto.
Qed.

(** ** Waiting for the packages referenced *)

Definition covered (s : state) (i : nat) (dn : list pkg) : Prop :=
  forall q, In q dn -> In q (checked R s) \/
    exists j u, nth_error (threads R s) j = Some u /\ tparent R u = Some i /\ tpkg R u = q /\ exited R u = false.

Fixpoint ordered (l : list event) : Prop :=
  match l with
  | [] => True
  | ECheck p :: l' => (forall q, In q (refs p) -> In q (dones l' ++ chk0)) /\ ordered l'
  | EDone p :: l' => (forall q, In q (refs p) -> In q (dones l' ++ chk0)) /\ ordered l'
  | EStart p :: l' => ordered l'
  end.

Record waits (s : state) : Prop := {
  w_count : forall i t, nth_error (threads R s) i = Some t -> twg R t = total (live i) (threads R s);
  w_spawn : forall i t todo dn, nth_error (threads R s) i = Some t -> tpc R t = Spawn R todo ->
    refs (tpkg R t) = dn ++ todo -> covered s i dn;
  w_wait : forall i t, nth_error (threads R s) i = Some t -> tpc R t = Wait R -> covered s i (refs (tpkg R t));
  w_after : forall i t, nth_error (threads R s) i = Some t ->
    match tpc R t with Types _ | Import _ _ _ | Read _ _ _ _ | Ill _ _ | Mark _ => True | _ => False end ->
    forall q, In q (refs (tpkg R t)) -> In q (checked R s);
  w_closed : forall p q, In p (checked R s) -> In q (refs p) -> In q (checked R s);
  w_order : ordered (log R s) }.

Lemma covered_did i s s' a dn : logged s -> did i s s' -> covered s a dn -> covered s' a dn.
Proof.
  intros G D C x Hx. destruct (C x Hx) as [Hcc|(j & u & Hu & Ep & Eq & Ex)].
  - left. cases D; cbn; try exact Hcc. now right.
  - destruct (did_keeps i s s' D j u Hu) as (u' & Hu' & E1 & E2).
    destruct (exited R u') eqn:E.
    + left. destruct (Nat.eq_dec j i) as [->|Hj].
      * rewrite <- Eq, <- E1. cases D; cbn [threads checked] in Hu' |- *;
          try (rewrite (nth_set_same _ _ _ _ Hi) in Hu'; injection Hu' as <-; cbn in E |- *; try discriminate E).
        -- rewrite nth_error_app1 in Hu' by (rewrite len_set; apply nth_error_Some; congruence).
           rewrite (nth_set_same _ _ _ _ Hi) in Hu'. injection Hu' as <-. discriminate E.
        -- apply (l_gone s G i _ Hi eq_refl).
        -- rewrite nth_set_other in Hu' by easy. rewrite (nth_set_same _ _ _ _ Hi) in Hu'. injection Hu' as <-.
           apply (l_gone s G i _ Hi eq_refl).
      * exfalso. destruct (did_from i s s' D j u' Hu') as [(u0 & H0 & _ & _ & E3)|(E3 & _)].
        -- rewrite Hu in H0. injection H0 as <-. unfold exited in E, Ex. rewrite (E3 Hj) in E. congruence.
        -- rewrite E3 in E. discriminate E.
    + right. exists j, u'. rewrite E1, E2. easy.
Qed.

Lemma did_live i s s' x : tree s -> did i s s' ->
  total (live x) (threads R s') =
  match nth_error (threads R s) i with
  | Some t => match tpc R t with
              | Spawn _ (_ :: _) => total (live x) (threads R s) + one (Nat.eqb i x)
              | Done _ => total (live x) (threads R s) - match tparent R t with Some j => one (Nat.eqb j x) | None => 0 end
              | _ => total (live x) (threads R s)
              end
  | None => 0
  end.
Proof.
  intros T D. cases D; cbn [threads]; rewrite Hi; cbn [tpc tparent].
  5: rewrite total_app; cbn [total].
  all: tot (live x) Hi.
  16: { rewrite <- (nth_set_other i k (mkthread R p (Exit R) wg (Some k))) in Hv by congruence. tot (live x) Hv.
        assert (E : live x (mkthread R (tpkg R v) (tpc R v) (pred (twg R v)) (tparent R v)) = live x v) by reflexivity.
        rewrite E in X0. unfold live at 2 4 in X. cbn [tparent exited tpc negb] in X.
        rewrite andb_true_r, andb_false_r in X. cbn [one] in X. lia. }
  all: unfold live at 2 4 in X; cbn [tparent exited tpc negb] in X.
  all: try lia.
  - unfold live at 2. cbn. rewrite andb_true_r. lia.
Qed.

Lemma did_waits i s s' : tree s -> locked s -> logged s -> waits s -> did i s s' -> waits s'.
Proof.
  intros T L G W D.
  assert (Hold : forall j u, j <> i -> nth_error (threads R s') j = Some u ->
    u = mkthread R (tpkg R u) (Lock R) 0 (Some i) \/ exists u0, nth_error (threads R s) j = Some u0 /\ tpkg R u = tpkg R u0 /\ tpc R u = tpc R u0).
  { intros j u Hj Hu. destruct (did_from i s s' D j u Hu) as [(u0 & H0 & E1 & _ & E3)|(E & _)].
    - right. exists u0. split; [easy|]. split; [easy|]. now apply E3.
    - now left. }
  assert (Hsub : forall p, In p (checked R s) -> In p (checked R s')).
  { intros x Hx. cases D; cbn; try exact Hx. now right. }
  constructor.
  - intros j u Hu. rewrite (did_live i s s' j T D).
    assert (Wj := w_count s W j). assert (Wi := w_count s W i).
    cases D; cbn [threads] in Hu; rewrite Hi; cbn [tpc tparent].
    all: try (old Hu; [rewrite <- (Wj _ Hi); reflexivity|now apply Wj]).
    + apply nth_error_app_cases in Hu. destruct Hu as [Hu|(-> & ->)].
      * old Hu.
        -- rewrite <- (Wj _ Hi). cbn. rewrite Nat.eqb_refl. cbn. lia.
        -- rewrite (Wj _ Hu). assert (X : Nat.eqb i j = false) by (apply Nat.eqb_neq; congruence). rewrite X. cbn. lia.
      * rewrite len_set. cbn [twg].
        assert (X : i < List.length (threads R s)) by (apply nth_error_Some; congruence).
        assert (Y : Nat.eqb i (List.length (threads R s)) = false) by (apply Nat.eqb_neq; lia). rewrite Y. cbn.
        rewrite Nat.add_0_r. symmetry. apply total_zero. intros m v Hm. unfold live.
        destruct (tparent R v) as [k|] eqn:E; [|easy]. destruct (t_parent s T m v k Hm E) as (t & Ht & _).
        assert (k < List.length (threads R s)) by (apply nth_error_Some; congruence).
        assert (Z : Nat.eqb k (List.length (threads R s)) = false) by (apply Nat.eqb_neq; lia). now rewrite Z.
    + rewrite Nat.sub_0_r. old Hu; [rewrite <- (Wj _ Hi); reflexivity|now apply Wj].
    + old Hu.
      * rewrite Nat.eqb_refl. cbn. rewrite <- (Wj _ Hv). lia.
      * assert (X : Nat.eqb k j = false) by (apply Nat.eqb_neq; congruence). rewrite X. cbn. rewrite Nat.sub_0_r.
        old Hu; [rewrite <- (Wj _ Hi); reflexivity|now apply Wj].
  - intros j u todo' dn Hu Es Er. destruct (Nat.eq_dec j i) as [->|Hj].
    + assert (C := fun a b => covered_did i s s' i a G D b). cases D; cbn [threads] in Hu;
        try (rewrite (nth_set_same _ _ _ _ Hi) in Hu; injection Hu as <-; cbn in Es; try discriminate Es).
      * injection Es as <-. cbn in Er. assert (dn = []) as ->.
        { apply (app_inv_tail (refs p)). cbn. now symmetry. }
        intros q [].
      * rewrite nth_error_app1 in Hu by (rewrite len_set; apply nth_error_Some; congruence).
        rewrite (nth_set_same _ _ _ _ Hi) in Hu. injection Hu as <-. cbn in Es, Er. injection Es as <-.
        destruct (t_spawn s T i _ _ Hi eq_refl) as (d & E). cbn in E.
        assert (dn = d ++ [q]) as ->.
        { apply (app_inv_tail todo). rewrite <- Er, E. now rewrite <- app_assoc. }
        intros x Hx. apply in_app_or in Hx. destruct Hx as [Hx|[<-|[]]].
        -- assert (Y := C d (w_spawn s W i _ _ d Hi eq_refl E)). exact (Y x Hx).
        -- right. exists (List.length (threads R s)), (mkthread R q (Lock R) 0 (Some i)). cbn [threads].
           split; [|easy]. rewrite nth_error_app2 by now rewrite len_set. rewrite len_set, Nat.sub_diag. reflexivity.
      * rewrite nth_set_other in Hu by easy. rewrite (nth_set_same _ _ _ _ Hi) in Hu. injection Hu as <-. discriminate Es.
    + destruct (Hold j u Hj Hu) as [E|(u0 & H0 & E1 & E2)]; [rewrite E in Es; discriminate Es|].
      apply (covered_did i s s' j dn G D). apply (w_spawn s W j u0 todo'); congruence.
  - intros j u Hu Es. destruct (Nat.eq_dec j i) as [->|Hj].
    + assert (C := fun a b => covered_did i s s' i a G D b). cases D; cbn [threads] in Hu;
        try (rewrite (nth_set_same _ _ _ _ Hi) in Hu; injection Hu as <-; cbn in Es; try discriminate Es).
      * apply C. destruct (t_spawn s T i _ _ Hi eq_refl) as (d & E). cbn in E. rewrite app_nil_r in E. cbn. rewrite E.
        apply (w_spawn s W i _ [] d Hi eq_refl). cbn. now rewrite app_nil_r.
      * rewrite nth_error_app1 in Hu by (rewrite len_set; apply nth_error_Some; congruence).
        rewrite (nth_set_same _ _ _ _ Hi) in Hu. injection Hu as <-. discriminate Es.
      * rewrite nth_set_other in Hu by easy. rewrite (nth_set_same _ _ _ _ Hi) in Hu. injection Hu as <-. discriminate Es.
    + destruct (Hold j u Hj Hu) as [E|(u0 & H0 & E1 & E2)]; [rewrite E in Es; discriminate Es|].
      apply (covered_did i s s' j _ G D). rewrite E1. apply (w_wait s W j u0); congruence.
  - intros j u Hu Es q0 Hq. destruct (Nat.eq_dec j i) as [->|Hj].
    + assert (A := w_after s W i). cases D; cbn [threads checked] in Hu |- *;
        try (rewrite (nth_set_same _ _ _ _ Hi) in Hu; injection Hu as <-; cbn in Es, Hq; try contradiction;
             try (apply (A _ Hi I _ Hq))).
      * rewrite nth_error_app1 in Hu by (rewrite len_set; apply nth_error_Some; congruence).
        rewrite (nth_set_same _ _ _ _ Hi) in Hu. injection Hu as <-. contradiction.
      * destruct (w_wait s W i _ Hi eq_refl q0 Hq) as [|(m & v & Hm & Ep & _ & Ex)]; [easy|]. exfalso.
        assert (X := total_one (live i) m v _ Hm). rewrite <- (w_count s W i _ Hi) in X. cbn in X.
        unfold live in X. rewrite Ep, Ex, Nat.eqb_refl in X. cbn in X. lia.
      * rewrite nth_set_other in Hu by easy. rewrite (nth_set_same _ _ _ _ Hi) in Hu. injection Hu as <-. contradiction.
    + destruct (Hold j u Hj Hu) as [E|(u0 & H0 & E1 & E2)]; [rewrite E in Es; contradiction|].
      rewrite E2 in Es. rewrite E1 in Hq. apply Hsub. exact (w_after s W j u0 H0 Es q0 Hq).
  - intros x y Hx Hy. assert (C := w_closed s W). assert (A := w_after s W i). cases D; cbn [checked] in Hx |- *;
      try (now apply (C x y)).
    right. destruct Hx as [<-|Hx]; [|now apply (C x y)]. apply (A _ Hi I _ Hy).
  - assert (O := w_order s W). assert (A := w_after s W i). cases D; cbn [log ordered]; try exact O.
    + split; [|exact O]. intros y Hy. rewrite <- (l_checked s G). apply (A _ Hi I _ Hy).
    + split; [|exact O]. intros y Hy. rewrite <- (l_checked s G). apply (A _ Hi I _ Hy).
Qed.

(** ** Types *)

Definition checking (c : pc) : bool :=
  match c with Import _ _ _ | Read _ _ _ _ | Ill _ _ => true | _ => false end.

(** What the importer returned for references are their types. *)
Definition seen_ok (s : state) (p : pkg) (seen : list (pkg * option R)) : Prop :=
  forall q v, In (q, v) seen -> In q (refs p) -> exists r, typ R s q = TFull R r /\ v = Some r.

Record typed (s : state) : Prop := {
  y_typ : forall p, match typ R s p with
                    | TNone _ => ty0 p = TNone R
                    | TPartial _ => ty0 p = TNone R /\ exists i t, nth_error (threads R s) i = Some t /\ tpkg R t = p /\ checking (tpc R t) = true
                    | TFull _ r => outcome p r
                    end;
  y_part : forall i t, nth_error (threads R s) i = Some t -> checking (tpc R t) = true -> typ R s (tpkg R t) = TPartial R;
  y_mark : forall i t, nth_error (threads R s) i = Some t -> tpc R t = Mark R -> exists r, typ R s (tpkg R t) = TFull R r;
  y_full : forall p, In p (checked R s) -> exists r, typ R s p = TFull R r;
  y_keep : forall p, ty0 p <> TNone R -> typ R s p = ty0 p;
  y_count : forall p, checks p (log R s) = match ty0 p with
                                           | TNone _ => match typ R s p with TNone _ => 0 | _ => 1 end
                                           | _ => 0
                                           end;
  y_seen : forall i t, nth_error (threads R s) i = Some t ->
    match tpc R t with
    | Import _ todo seen => imps (tpkg R t) = map fst seen ++ todo /\ seen_ok s (tpkg R t) seen
    | Read _ q todo seen => imps (tpkg R t) = map fst seen ++ q :: todo /\ seen_ok s (tpkg R t) seen
    | Ill _ seen => imps (tpkg R t) = map fst seen /\ seen_ok s (tpkg R t) seen
    | _ => True
    end }.

Lemma typ_full i s s' q r : typed s -> did i s s' -> typ R s q = TFull R r -> typ R s' q = TFull R r.
Proof.
  intros Y D E. assert (P := y_part s Y i).
  destruct D as [| | | | | |p wg par Hi Ht| | | | |p wg par seen Hi| | | |]; cbn; try exact E.
  - rewrite upd_other; [easy|]. intros ->. congruence.
  - rewrite upd_other; [easy|]. intros ->. specialize (P _ Hi eq_refl). cbn in P. congruence.
Qed.

Lemma seen_did i s s' p seen : typed s -> did i s s' -> seen_ok s p seen -> seen_ok s' p seen.
Proof. intros Y D S q v Hq Hr. destruct (S q v Hq Hr) as (r & E & ->). exists r. split; [|easy]. now apply (typ_full i s). Qed.

Lemma did_typed i s s' : locked s -> logged s -> waits s -> typed s -> did i s s' -> typed s'.
Proof.
  intros L G W Y D. assert (F := fun q r => typ_full i s s' q r Y D).
  assert (S := fun p seen => seen_did i s s' p seen Y D).
  assert (Hold : forall j u, j <> i -> nth_error (threads R s') j = Some u ->
    u = mkthread R (tpkg R u) (Lock R) 0 (Some i) \/ exists u0, nth_error (threads R s) j = Some u0 /\ tpkg R u = tpkg R u0 /\ tpc R u = tpc R u0).
  { intros j u Hj Hu. destruct (did_from i s s' D j u Hu) as [(u0 & H0 & E1 & _ & E3)|(E & _)].
    - right. exists u0. split; [easy|]. split; [easy|]. now apply E3.
    - now left. }
  assert (Keep : forall j u, j <> i -> nth_error (threads R s) j = Some u ->
    exists u', nth_error (threads R s') j = Some u' /\ tpkg R u' = tpkg R u /\ tpc R u' = tpc R u).
  { intros j u Hj Hu. destruct (did_keeps i s s' D j u Hu) as (u' & Hu' & E1 & _). exists u'. split; [easy|]. split; [easy|].
    destruct (did_from i s s' D j u' Hu') as [(u0 & H0 & _ & _ & E3)|(_ & Ej & _)].
    - rewrite Hu in H0. injection H0 as <-. now apply E3.
    - exfalso. assert (j < List.length (threads R s)) by (apply nth_error_Some; congruence). lia. }
  constructor.
  - intros x. assert (Yx := y_typ s Y x).
    assert (Same : typ R s' x = typ R s x -> (typ R s x = TPartial R -> forall t, nth_error (threads R s) i = Some t ->
        tpkg R t = x -> checking (tpc R t) = true -> exists t', nth_error (threads R s') i = Some t' /\ tpkg R t' = x /\ checking (tpc R t') = true) ->
      match typ R s' x with
      | TNone _ => ty0 x = TNone R
      | TPartial _ => ty0 x = TNone R /\ exists i t, nth_error (threads R s') i = Some t /\ tpkg R t = x /\ checking (tpc R t) = true
      | TFull _ r => outcome x r
      end).
    { intros E H. rewrite E. destruct (typ R s x) eqn:Ex; try exact Yx.
      destruct Yx as (Y0 & j & t & Hj & Ep & Ec). split; [easy|]. destruct (Nat.eq_dec j i) as [->|Hji].
      - destruct (H eq_refl t Hj Ep Ec) as (t' & H'). now exists i, t'.
      - destruct (Keep j t Hji Hj) as (t' & Ht' & E1 & E2). exists j, t'. rewrite E1, E2. easy. }
    assert (P := y_part s Y i). assert (Wa := w_after s W i). assert (Ys := y_seen s Y i).
    cases D; cbn [typ] in *;
      try (apply Same; [reflexivity|intros _ t Hti Ep Ec; rewrite Hi in Hti; injection Hti as <-; cbn in Ep, Ec;
           first [discriminate Ec|eexists; split; [cbn [threads]; apply (nth_set_same _ _ _ _ Hi)|easy]]]; fail).
    + (* check *)
      destruct (Nat.eq_dec x p) as [->|Hx].
      * rewrite upd_same. split; [now rewrite Ht in Yx|]. exists i. eexists. cbn [threads].
        split; [apply (nth_set_same _ _ _ _ Hi)|easy].
      * apply Same; [now rewrite upd_other|]. intros _ t Hti Ep Ec. rewrite Hi in Hti. injection Hti as <-. discriminate Ec.
    + (* ill *)
      destruct (Nat.eq_dec x p) as [->|Hx].
      * rewrite upd_same. specialize (P _ Hi eq_refl). cbn in P. rewrite P in Yx. destruct Yx as (Y0 & _).
        specialize (Ys _ Hi). cbn in Ys. destruct Ys as (Em & Sm).
        apply (outcome_new _ _ _ _ p (fun q => match typ R s q with TFull _ r => r | _ => result q [] end) seen); [easy| |easy|].
        -- intros q Hq. assert (Hc := Wa _ Hi I q Hq). destruct (y_full s Y q Hc) as (r & Er).
           assert (Yq := y_typ s Y q). rewrite Er in Yq |- *. exact Yq.
        -- intros q v Hv Hq. destruct (Sm q v Hv Hq) as (r & Er & ->). now rewrite Er.
      * apply Same; [now rewrite upd_other|]. intros _ t Hti Ep Ec. rewrite Hi in Hti. injection Hti as <-. cbn in Ep. congruence.
  - intros j u Hu Ec. assert (P := y_part s Y). destruct (Nat.eq_dec j i) as [->|Hj].
    + cases D; self Hu Hi; cbn in Ec |- *; try discriminate Ec; try (apply (P i _ Hi eq_refl)). now rewrite upd_same.
    + destruct (Hold j u Hj Hu) as [E|(u0 & H0 & E1 & E2)]; [rewrite E in Ec; discriminate Ec|].
      rewrite E1. rewrite E2 in Ec. assert (Pj := P j u0 H0 Ec).
      assert (Hne : forall t, nth_error (threads R s) i = Some t -> own (tpc R t) = true -> tpkg R u0 <> tpkg R t).
      { intros t Hti Hown Eq. apply Hj. apply (alone s j u0 i t L H0 Hti); [now destruct (tpc R u0)|easy|easy]. }
      cases D; cbn [typ]; try exact Pj.
      * rewrite upd_other; [exact Pj|]. exact (Hne _ Hi eq_refl).
      * rewrite upd_other; [exact Pj|]. exact (Hne _ Hi eq_refl).
  - intros j u Hu Em. destruct (Nat.eq_dec j i) as [->|Hj].
    + assert (Yt := fun x => y_typ s Y x). assert (Al := fun t j u => alone s i t j u L). cases D; self Hu Hi; cbn in Em |- *; try discriminate Em.
      * destruct (typ R s p) eqn:E; [congruence| |eauto]. specialize (Yt p). rewrite E in Yt.
        destruct Yt as (_ & j & t & Hj & Ep & Ec).
        assert (Eij : i = j) by (apply (Al _ j t Hi Hj); [reflexivity|now destruct (tpc R t)|now rewrite Ep]).
        subst j. rewrite Hi in Hj. injection Hj as <-. discriminate Ec.
      * rewrite upd_same. eauto.
    + destruct (Hold j u Hj Hu) as [E|(u0 & H0 & E1 & E2)]; [rewrite E in Em; discriminate Em|].
      rewrite E2 in Em. rewrite E1. destruct (y_mark s Y j u0 H0 Em) as (r & Er). exists r. now apply F.
  - intros x Hx. assert (Hor : In x (checked R s) \/ exists t, nth_error (threads R s) i = Some t /\ tpc R t = Mark R /\ tpkg R t = x).
    { cases D; cbn in Hx; try (now left). destruct Hx as [->|Hx]; [right|now left]. eexists. split; [exact Hi|easy]. }
    destruct Hor as [Hc|(t & Hti & Em & <-)].
    + destruct (y_full s Y x Hc) as (r & Er). exists r. now apply F.
    + destruct (y_mark s Y i t Hti Em) as (r & Er). exists r. now apply F.
  - intros x Hx. rewrite <- (y_keep s Y x Hx). assert (Yx := y_keep s Y x Hx). assert (Yt := y_typ s Y).
    assert (P := y_part s Y i). cases D; cbn [typ]; try reflexivity.
    + apply upd_other. intros ->. congruence.
    + apply upd_other. intros ->. specialize (P _ Hi eq_refl). cbn in P. specialize (Yt p). rewrite P in Yt. now destruct Yt.
  - intros x. assert (Yx := y_count s Y x). assert (P := y_part s Y i). assert (Yt := y_typ s Y).
    cases D; cbn [log checks typ]; try exact Yx.
    + rewrite Yx. unfold upd. rewrite (Nat.eqb_sym x p). destruct (Nat.eqb_spec p x) as [->|Hn]; [|easy].
      specialize (Yt x). rewrite Ht in Yt. now rewrite Ht, Yt.
    + rewrite Yx. unfold upd. destruct (Nat.eqb_spec x p) as [->|Hn]; [|easy].
      specialize (P _ Hi eq_refl). cbn in P. now rewrite P.
  - intros j u Hu. destruct (Nat.eq_dec j i) as [->|Hj].
    + assert (Ys := y_seen s Y i). assert (Wa := w_after s W i). assert (Fl := y_full s Y).
      cases D; self Hu Hi; cbn [tpc tpkg]; try exact I; try (specialize (Ys _ Hi); cbn in Ys).
      * split; [easy|]. intros q v [].
      * destruct Ys as (E & Sm). rewrite app_nil_r in E. split; [easy|]. now apply S.
      * destruct Ys as (E & Sm). split; [easy|]. now apply S.
      * destruct Ys as (E & Sm). rewrite map_app. cbn. split; [now rewrite <- app_assoc|].
        intros y v Hy Hr. apply in_app_or in Hy. destruct Hy as [Hy|[[= <- <-]|[]]].
        -- now apply (S p seen Sm y v).
        -- destruct (Fl q (Wa _ Hi I q Hr)) as (r & Er). exists r. cbn [typ]. now rewrite Er.
    + destruct (Hold j u Hj Hu) as [E|(u0 & H0 & E1 & E2)]; [now rewrite E|].
      rewrite E1, E2. assert (Ys := y_seen s Y j u0 H0).
      destruct (tpc R u0); try exact I; destruct Ys as (E & Sm); (split; [easy|]; now apply S).
Qed.

(** ** IllTyped *)

Record illed (s : state) : Prop := {
  e_old : forall p, (ty0 p <> TNone R \/ forall r, typ R s p <> TFull R r) -> ill R s p = il0 p;
  e_refs : forall p q, ty0 p = TNone R -> typ R s p <> TNone R -> In q (refs p) -> In q (checked R s);
  e_new : forall p r, ty0 p = TNone R -> typ R s p = TFull R r ->
    exists l, r = result p l /\ map fst l = imps p /\ seen_ok s p l /\
      (ill R s p = true -> bad p l = true \/ exists q, In q (imps p) /\ ill R s q = true) /\
      (bad p l = true \/ (exists q, In q (imps p) /\ In q (refs p) /\ ill R s q = true) -> ill R s p = true) }.

Lemma did_illed i s s' : logged s -> waits s -> typed s -> illed s -> did i s s' -> illed s'.
Proof.
  intros G W Y E D. destruct Hready as (_ & _ & _ & Hil).
  assert (F := fun q r => typ_full i s s' q r Y D).
  assert (S := fun p seen => seen_did i s s' p seen Y D).
  (* the package whose flag changes *)
  assert (Hch : forall x, ill R s' x = ill R s x \/
    (exists t seen, nth_error (threads R s) i = Some t /\ tpkg R t = x /\ tpc R t = Ill R seen /\
      ill R s' x = bad x seen || existsb (ill R s) (imps x) /\ typ R s' x = TFull R (result x seen))).
  { intros x. cases D; cbn [ill typ]; try (now left). destruct (Nat.eq_dec x p) as [->|Hx].
    - right. eexists. exists seen. rewrite !upd_same. now repeat split; eauto.
    - left. now rewrite upd_other. }
  assert (Hpart : forall t seen, nth_error (threads R s) i = Some t -> tpc R t = Ill R seen ->
    typ R s (tpkg R t) = TPartial R /\ ty0 (tpkg R t) = TNone R /\ ill R s (tpkg R t) = false).
  { intros t seen Hti Ec. assert (P : typ R s (tpkg R t) = TPartial R) by (apply (y_part s Y i t Hti); now rewrite Ec).
    assert (Yt := y_typ s Y (tpkg R t)). rewrite P in Yt. destruct Yt as (Y0 & _). split; [easy|]. split; [easy|].
    rewrite (e_old s E); [now apply Hil|]. right. intros r. congruence. }
  assert (Hmono : forall x, ill R s x = true -> ill R s' x = true).
  { intros x Hx. destruct (Hch x) as [->|(t & seen & Hti & Ep & Ec & _)]; [easy|].
    exfalso. destruct (Hpart t seen Hti Ec) as (_ & _ & P). rewrite Ep in P. congruence. }
  assert (Hfix : forall x r, typ R s x = TFull R r -> ill R s' x = ill R s x).
  { intros x r Hx. destruct (Hch x) as [->|(t & seen & Hti & Ep & Ec & _)]; [easy|].
    exfalso. destruct (Hpart t seen Hti Ec) as (P & _). rewrite Ep in P. congruence. }
  assert (Hsub : forall p, In p (checked R s) -> In p (checked R s')).
  { intros x Hx. cases D; cbn; try exact Hx. now right. }
  constructor.
  - intros x Hx. destruct (Hch x) as [->|(t & seen & Hti & Ep & Ec & _ & Ef)].
    + apply (e_old s E). destruct Hx as [Hx|Hx]; [now left|right]. intros r Hr. apply (Hx r). now apply F.
    + exfalso. destruct Hx as [Hx|Hx]; [|now apply (Hx _ Ef)]. apply Hx. rewrite <- Ep. now apply (Hpart t seen).
  - intros x y H0 H1 Hy. apply Hsub.
    assert (Hor : typ R s x <> TNone R \/ exists t, nth_error (threads R s) i = Some t /\ tpkg R t = x /\ tpc R t = Types R).
    { assert (Hp := Hpart). cases D; cbn [typ] in H1; try (now left).
      - destruct (Nat.eq_dec x p) as [->|Hx]; [right; now repeat eexists; eauto|left]. now rewrite upd_other in H1.
      - left. destruct (Nat.eq_dec x p) as [->|Hx]; [|now rewrite upd_other in H1].
        destruct (Hp _ _ Hi eq_refl) as (P & _). cbn in P. now rewrite P. }
    destruct Hor as [Hn|(t & Hti & <- & Ec)]; [now apply (e_refs s E x)|].
    apply (w_after s W i t Hti); [now rewrite Ec|easy].
  - intros x r H0 Hr. destruct (typ R s x) eqn:Ex.
    + exfalso. assert (Hp := Hpart). cases D; cbn [typ] in Hr; try congruence.
      * destruct (Nat.eq_dec x p) as [->|Hx]; [rewrite upd_same in Hr; discriminate Hr|]. rewrite upd_other in Hr by easy. congruence.
      * destruct (Nat.eq_dec x p) as [->|Hx]; [|rewrite upd_other in Hr by easy; congruence].
        destruct (Hp _ _ Hi eq_refl) as (P & _). cbn in P. congruence.
    + assert (Hor : exists t seen, nth_error (threads R s) i = Some t /\ tpkg R t = x /\ tpc R t = Ill R seen).
      { cases D; cbn [typ] in Hr; try congruence.
        - destruct (Nat.eq_dec x p) as [->|Hx]; [rewrite upd_same in Hr; discriminate Hr|]. rewrite upd_other in Hr by easy. congruence.
        - destruct (Nat.eq_dec x p) as [->|Hx]; [|rewrite upd_other in Hr by easy; congruence]. now repeat eexists; eauto. }
      destruct Hor as (t & sn & Hti & Ep & Ec).
      assert (Hill : ill R s' x = bad x sn || existsb (ill R s) (imps x) /\ typ R s' x = TFull R (result x sn)).
      { clear - D Hti Ep Ec. cases D; rewrite Hi in Hti; injection Hti as <-; try discriminate Ec.
        injection Ec as <-. cbn in Ep. subst x. cbn. now rewrite !upd_same. }
      destruct Hill as (Hill & Ht'). rewrite Ht' in Hr. injection Hr as <-. exists sn. split; [easy|].
      assert (Ys := y_seen s Y i t Hti). rewrite Ec, Ep in Ys. destruct Ys as (Em & Sm). split; [easy|]. split; [now apply S|].
      rewrite Hill, orb_true_iff, existsb_exists. split.
      * intros [Hb|(q & Hq & Hi')]; [now left|right]. exists q. split; [easy|]. now apply Hmono.
      * intros [Hb|(q & Hq & Hrf & Hi')]; [now left|right]. exists q. split; [easy|].
        assert (Hc : In q (checked R s)).
        { apply (w_after s W i t Hti); [now rewrite Ec|now rewrite Ep]. }
        destruct (y_full s Y q Hc) as (rq & Eq). now rewrite <- (Hfix q rq Eq).
    + assert (Hr' := F x r0 Ex). rewrite Hr in Hr'. injection Hr' as <-.
      destruct (e_new s E x r H0 Ex) as (l & El & Em & Sm & H1 & H2). exists l. split; [easy|]. split; [easy|]. split; [now apply S|].
      rewrite (Hfix x r Ex). split.
      * intros Hi'. destruct (H1 Hi') as [|(q & Hq & Hq')]; [now left|right]. exists q. split; [easy|]. now apply Hmono.
      * intros [Hb|(q & Hq & Hrf & Hi')]; apply H2; [now left|right]. exists q. split; [easy|]. split; [easy|].
        assert (Hc : In q (checked R s)) by (apply (e_refs s E x q H0); [congruence|easy]).
        destruct (y_full s Y q Hc) as (rq & Eq). now rewrite <- (Hfix q rq Eq).
Qed.

(** ** All of it *)

Record good (s : state) : Prop := {
  g_tree : tree s; g_locked : locked s; g_logged : logged s; g_waits : waits s; g_typed : typed s; g_illed : illed s }.

Lemma good_start : good (start R root chk0 ty0 il0).
Proof.
  destruct Hready as (H1 & H2 & H3 & H4).
  assert (One : forall i t, nth_error (threads R (start R root chk0 ty0 il0)) i = Some t -> i = 0 /\ t = mkthread R root (Lock R) 0 None).
  { intros [|i] t H; cbn in H; [now injection H as <-|]. destruct i; discriminate H. }
  constructor; constructor; try (intros i t H; destruct (One i t H) as (-> & ->); cbn; easy); cbn; try easy.
  - intros j u i H E. destruct (One j u H) as (-> & ->). discriminate E.
  - now exists (mkthread R root (Lock R) 0 None).
  - intros i t H. destruct (One i t H) as (-> & ->). constructor.
  - intros i t todo H E. destruct (One i t H) as (-> & ->). discriminate E.
  - constructor.
  - tauto.
  - intros i t todo dn H E. destruct (One i t H) as (-> & ->). discriminate E.
  - intros p. destruct (ty0 p) eqn:E; [easy|now apply H3 in E|now constructor].
  - intros p. destruct (ty0 p); easy.
  - intros p r E1 E2. congruence.
Qed.

Lemma good_step i s s' : good s -> exec i s = Some s' -> good s'.
Proof.
  intros [T L G W Y E] H. assert (D := exec_did i s s' T H). constructor.
  - now apply (did_tree i s).
  - now apply (did_locked i s).
  - now apply (did_logged i s).
  - now apply (did_waits i s).
  - now apply (did_typed i s).
  - now apply (did_illed i s).
Qed.

Lemma good_runs sched : forall s s', good s -> runs sched s = Some s' -> good s'.
Proof.
  induction sched as [|i sched IH]; intros s s' Hs H; cbn in H; [now injection H as <-|].
  destruct (exec i s) as [s1|] eqn:E; [|discriminate H]. apply (IH s1); [|easy]. now apply (good_step i s).
Qed.

(** ** There is always a goroutine that can go on *)

Lemma progress_at s : good s -> forall n i t, nth_error (threads R s) i = Some t -> exited R t = false -> rank (tpkg R t) < n ->
  exists j s', exec j s = Some s'.
Proof.
  intros [T L G W Y E] n. induction n as [|n IH]; intros i t Hi Hx Hn; [lia|].
  (* one that holds its own lock *)
  assert (Own : forall j u, nth_error (threads R s) j = Some u -> own (tpc R u) = true -> rank (tpkg R u) < S n ->
    exists k s', exec k s = Some s').
  { intros j u Hj Ho Hr. destruct (CheckModel.exec R refs imps result bad j s) as [s'|] eqn:Ex; [now exists j, s'|].
    unfold CheckModel.exec in Ex. rewrite Hj in Ex. destruct (tpc R u) as [| |todo| | |todo seen|q todo seen|seen| | | |] eqn:Ec; try discriminate; try discriminate Ho.
    - destruct (mem (tpkg R u) (checked R s)); discriminate Ex.
    - destruct todo; discriminate Ex.
    - destruct (twg R u) as [|m] eqn:Ew; [discriminate Ex|].
      assert (C := w_count s W j u Hj). rewrite Ew in C.
      destruct (total_some (live j) (threads R s)) as (k & v & Hk & Hv); [lia|].
      unfold live in Hv. destruct (tparent R v) as [j'|] eqn:Ep; [|lia].
      destruct (Nat.eqb j' j) eqn:Ej; cbn in Hv; [|lia]. apply Nat.eqb_eq in Ej. subst j'.
      destruct (t_parent s T k v j Hk Ep) as (u' & Hu' & Hin). rewrite Hj in Hu'. injection Hu' as <-.
      apply (IH k v Hk).
      + destruct (exited R v); cbn in Hv; [lia|easy].
      + assert (X := Hrank _ _ (or_introl Hin)). lia.
    - destruct (typ R s (tpkg R u)); discriminate Ex.
    - destruct todo as [|q todo]; [discriminate Ex|]. destruct (held R s q) eqn:Hh; [|discriminate Ex].
      assert (Ys := y_seen s Y j u Hj). rewrite Ec in Ys. destruct Ys as (Em & _).
      assert (Hq : rank q < rank (tpkg R u)).
      { apply Hrank. right. rewrite Em. apply in_or_app. right. now left. }
      assert (Lq := L q). rewrite Hh in Lq. cbn in Lq.
      destruct (total_some (holds q) (threads R s)) as (k & v & Hk & Hv); [lia|]. unfold holds in Hv.
      destruct (own (tpc R v) && Nat.eqb (tpkg R v) q) eqn:Eo.
      + apply andb_true_iff in Eo. destruct Eo as (Eo & Eq). apply Nat.eqb_eq in Eq.
        apply (IH k v Hk); [unfold exited; now destruct (tpc R v)|]. rewrite Eq. lia.
      + cbn in Hv. destruct (tpc R v) eqn:Ev; cbn in Hv; try lia.
        exists k. unfold CheckModel.exec. rewrite Hk, Ev. eauto. }
  destruct (own (tpc R t)) eqn:Ho; [now apply (Own i t)|].
  destruct (tpc R t) eqn:Ec; try discriminate Ho.
  - destruct (held R s (tpkg R t)) eqn:Hh.
    + assert (Lq := L (tpkg R t)). rewrite Hh in Lq. cbn in Lq.
      destruct (total_some (holds (tpkg R t)) (threads R s)) as (k & v & Hk & Hv); [lia|]. unfold holds in Hv.
      destruct (own (tpc R v) && Nat.eqb (tpkg R v) (tpkg R t)) eqn:Eo.
      * apply andb_true_iff in Eo. destruct Eo as (Eo & Eq). apply Nat.eqb_eq in Eq. apply (Own k v Hk Eo). rewrite Eq. lia.
      * cbn in Hv. destruct (tpc R v) eqn:Ev; cbn in Hv; try lia.
        exists k. unfold CheckModel.exec. rewrite Hk, Ev. eauto.
    + exists i. unfold CheckModel.exec. rewrite Hi, Ec, Hh. eauto.
  - exists i. unfold CheckModel.exec. rewrite Hi, Ec. eauto.
  - unfold exited in Hx. rewrite Ec in Hx. discriminate Hx.
Qed.

Lemma progress s : good s -> over R s \/ exists i s', exec i s = Some s'.
Proof.
  intros H. unfold over. destruct (forallb (exited R) (threads R s)) eqn:E; [now left|right].
  assert (X : exists t, In t (threads R s) /\ exited R t = false).
  { clear - E. induction (threads R s) as [|t l IH]; [discriminate E|]. cbn in E. destruct (exited R t) eqn:Et.
    - destruct (IH E) as (u & Hu & Eu). exists u. split; [now right|easy].
    - exists t. split; [now left|easy]. }
  destruct X as (t & Ht & Ex). apply In_nth_error in Ht. destruct Ht as (i & Hi).
  apply (progress_at s H (S (rank (tpkg R t))) i t Hi Ex). lia.
Qed.

(** ** No schedule goes on forever *)

Fixpoint wt (n : nat) (p : pkg) : nat :=
  match n with
  | 0 => 0
  | S n' => 10 + 2 * List.length (imps p) + total (fun q => S (wt n' q)) (refs p)
  end.

Lemma wt_any n : forall m p, rank p < n -> rank p < m -> wt n p = wt m p.
Proof.
  induction n as [|n IH]; intros [|m] p Hn Hm; try lia. cbn [wt]. f_equal. apply total_ext. intros q Hq. f_equal.
  assert (X := Hrank p q (or_introl Hq)). apply IH; lia.
Qed.

Definition weight (p : pkg) : nat := wt (S (rank p)) p.
Lemma weight_eq p : weight p = 10 + 2 * List.length (imps p) + total (fun q => S (weight q)) (refs p).
Proof.
  unfold weight at 1. cbn [wt]. f_equal. apply total_ext. intros q Hq. f_equal. apply wt_any; [|unfold weight; lia].
  apply Hrank. now left.
Qed.

Definition cost (t : thread) : nat :=
  let p := tpkg R t in
  let i := 2 * List.length (imps p) in
  match tpc R t with
  | Lock _ => weight p
  | Test _ => 9 + i + total (fun q => S (weight q)) (refs p)
  | Spawn _ todo => 8 + i + total (fun q => S (weight q)) todo
  | Wait _ => 7 + i
  | Types _ => 6 + i
  | Import _ todo _ => 5 + 2 * List.length todo
  | Read _ _ todo _ => 6 + 2 * List.length todo
  | Ill _ _ => 4
  | Mark _ => 3
  | Unlock _ => 2
  | Done _ => 1
  | Exit _ => 0
  end.

Lemma did_cost i s s' : did i s s' -> total cost (threads R s') < total cost (threads R s).
Proof.
  intros D. cases D; cbn [threads].
  5: rewrite total_app; cbn [total].
  all: tot cost Hi.
  16: { rewrite <- (nth_set_other i k (mkthread R p (Exit R) wg (Some k))) in Hv by congruence. tot cost Hv.
        unfold cost in X at 2 4. unfold cost in X0 at 2 4. cbn [tpc tpkg] in X, X0. lia. }
  all: unfold cost in X at 2 4; cbn [tpc tpkg] in X; try rewrite weight_eq in X; try lia.
  - cbn [total] in X. unfold cost at 2. cbn [tpc tpkg]. lia.
  - cbn [List.length] in X. lia.
Qed.

Lemma runs_short sched : forall s s', good s -> runs sched s = Some s' ->
  List.length sched + total cost (threads R s') <= total cost (threads R s).
Proof.
  induction sched as [|i sched IH]; intros s s' Hs H; cbn in H; [injection H as <-; cbn; lia|].
  destruct (exec i s) as [s1|] eqn:E; [|discriminate H]. assert (D := exec_did i s s1 (g_tree s Hs) E).
  specialize (IH s1 s' (good_step i s s1 Hs E) H). assert (X := did_cost i s s1 D). cbn. lia.
Qed.

Lemma runs_app a : forall b s, runs (a ++ b) s = match runs a s with Some s1 => runs b s1 | None => None end.
Proof.
  induction a as [|i a IH]; intros b s; cbn; [easy|]. destruct (exec i s) as [s1|]; [apply IH|easy].
Qed.

Lemma can_end s : good s -> exists sched s', runs sched s = Some s' /\ over R s'.
Proof.
  intros Hs. remember (total cost (threads R s)) as n eqn:En. revert s Hs En.
  induction n as [n IH] using lt_wf_ind. intros s Hs En.
  destruct (progress s Hs) as [Ho|(i & s1 & E)]; [now exists [], s|].
  assert (X := did_cost i s s1 (exec_did i s s1 (g_tree s Hs) E)).
  destruct (IH (total cost (threads R s1)) ltac:(lia) s1 (good_step i s s1 Hs E) eq_refl) as (sched & s' & H & Ho).
  exists (i :: sched), s'. split; [|easy]. cbn. now rewrite E.
Qed.

(** ** When all goroutines have ended *)

Lemma over_exit s i t : over R s -> nth_error (threads R s) i = Some t -> tpc R t = Exit R.
Proof.
  unfold over. intros H Hi. rewrite forallb_forall in H. assert (X := H t (nth_error_In _ _ Hi)).
  unfold exited in X. destruct (tpc R t); try discriminate X. reflexivity.
Qed.

Lemma over_checked s p : good s -> over R s -> (In p (checked R s) <-> In p chk0 \/ reach refs root p).
Proof.
  intros [T L G W Y E] Ho. split.
  - rewrite (l_checked s G). intros H. apply in_app_or in H. destruct H as [H|H]; [right|now left].
    apply (l_reach s G). right. right. now apply in_dones.
  - intros [H|H].
    + rewrite (l_checked s G). apply in_or_app. now right.
    + induction H as [|q r Hq IH Hr].
      * destruct (t_root s T) as (t & Ht & <-). apply (l_gone s G 0 t Ht). now rewrite (over_exit s 0 t Ho Ht).
      * now apply (w_closed s W q r).
Qed.

End Inv.
