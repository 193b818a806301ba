(** * The type checker of the loader: the theorems (C31) *)

From Coq Require Import List Bool Arith Lia.
Import ListNotations.
From Verif Require Import CheckModel CheckSpec CheckProofs.
Open Scope nat_scope.
Open Scope list_scope.

Section Claims.
Variable R : Type.
Variable refs imps : pkg -> list pkg.
Variable result : pkg -> list (pkg * option R) -> R.
Variable bad : pkg -> list (pkg * option R) -> bool.
Variable rank : pkg -> nat.
Hypothesis Hrank : acyclic refs imps rank.

Notation runs := (runs R refs imps result bad).
Notation exec := (exec R refs imps result bad).

(** Whatever the scheduler does, Check returns: schedules are bounded, and as long as
    a goroutine is left one of them can go on. *)
Theorem check_ends root chk ty il : ready refs chk ty il ->
  exists n, forall sched s, runs sched (start R root chk ty il) = Some s ->
    List.length sched <= n /\ (over R s \/ exists i s', exec i s = Some s').
Proof.
  intros Hr. exists (total (cost R refs imps rank) (threads R (start R root chk ty il))). intros sched s H.
  assert (G := good_start R refs imps result bad root chk ty il Hr).
  split.
  - assert (X := runs_short R refs imps result bad rank Hrank root chk ty il Hr sched _ _ G H). lia.
  - apply (progress R refs imps result bad rank Hrank root chk ty il).
    now apply (good_runs R refs imps result bad rank Hrank root chk ty il Hr sched _ _ G).
Qed.

(** Exactly the packages reached by references and not checked before are checked,
    each once, and type-checked unless they had types. *)
Theorem check_exactly root chk ty il sched s p : ready refs chk ty il ->
  runs sched (start R root chk ty il) = Some s -> over R s ->
  (In p (checked R s) <-> In p chk \/ reach refs root p) /\
  (reach refs root p -> ~ In p chk -> starts p (log R s) = 1 /\ count_occ Nat.eq_dec (dones (log R s)) p = 1) /\
  (~ reach refs root p \/ In p chk -> starts p (log R s) = 0 /\ count_occ Nat.eq_dec (dones (log R s)) p = 0) /\
  (reach refs root p -> ~ In p chk -> ty p = TNone R -> checks p (log R s) = 1) /\
  (~ reach refs root p \/ In p chk \/ ty p <> TNone R -> checks p (log R s) = 0).
Proof.
  intros Hr H Ho. assert (G0 := good_start R refs imps result bad root chk ty il Hr).
  assert (G := good_runs R refs imps result bad rank Hrank root chk ty il Hr sched _ _ G0 H).
  assert (C := over_checked R refs imps result bad root chk ty il s p G Ho).
  destruct G as [T L G W Y E].
  assert (St : starts p (log R s) = count_occ Nat.eq_dec (dones (log R s)) p).
  { rewrite (l_starts _ _ _ _ _ G). assert (Z : total (busy R p) (threads R s) = 0); [|lia].
    apply total_zero. intros i t Hi. unfold busy. now rewrite (over_exit R s i t Ho Hi). }
  assert (D : In p (dones (log R s)) <-> reach refs root p /\ ~ In p chk).
  { split.
    - intros Hd. split; [|now apply (l_new _ _ _ _ _ G)]. apply (l_reach _ _ _ _ _ G). right. right. exact (proj1 (in_dones p (log R s)) Hd).
    - intros (Hp & Hn). assert (X := proj2 C (or_intror Hp)). rewrite (l_checked _ _ _ _ _ G) in X.
      apply in_app_or in X. tauto. }
  split; [exact C|]. split; [|split; [|split]].
  - intros Hp Hn. rewrite St. assert (X : In p (dones (log R s))) by tauto.
    assert (N := l_nodup _ _ _ _ _ G). rewrite (NoDup_count_occ' Nat.eq_dec) in N. rewrite (N p X). easy.
  - intros Hp. rewrite St. assert (X : ~ In p (dones (log R s))) by tauto.
    apply (count_occ_not_In Nat.eq_dec) in X. easy.
  - intros Hp Hn Ht. rewrite (y_count _ _ _ _ _ _ Y), Ht.
    destruct (y_full _ _ _ _ _ _ Y p (proj2 C (or_intror Hp))) as (r & ->). easy.
  - intros Hp. rewrite (y_count _ _ _ _ _ _ Y). destruct (ty p) eqn:Et; try easy.
    destruct (typ R s p) eqn:Es; try easy; exfalso.
    + assert (X := y_typ _ _ _ _ _ _ Y p). rewrite Es in X. destruct X as (_ & i & t & Hi & _ & Ec).
      rewrite (over_exit R s i t Ho Hi) in Ec. discriminate Ec.
    + assert (Y1 := y_count _ _ _ _ _ _ Y p). rewrite Et, Es in Y1.
      destruct Hp as [Hp|[Hp|Hp]]; [|destruct Hr as (_ & Hf & _); destruct (Hf p Hp); congruence|easy].
      apply Hp. apply (l_reach _ _ _ _ _ G). right. left.
      clear - Y1. induction (log R s) as [|e l IH]; [discriminate Y1|]. cbn in Y1. destruct e as [q|q|q]; cbn.
      * right. now apply IH.
      * destruct (Nat.eqb_spec q p) as [->|Hq]; [now left|right]. now apply IH.
      * right. now apply IH.
Qed.

(** At every moment of every schedule: a package has been type-checked or entered only
    after all the packages it references were entered. *)
Theorem check_order root chk ty il sched s l1 e l2 p q : ready refs chk ty il ->
  runs sched (start R root chk ty il) = Some s ->
  log R s = l1 ++ e :: l2 -> e = ECheck p \/ e = EDone p -> In q (refs p) ->
  In q chk \/ In (EDone q) l2.
Proof.
  intros Hr H El He Hq. assert (G0 := good_start R refs imps result bad root chk ty il Hr).
  assert (G := good_runs R refs imps result bad rank Hrank root chk ty il Hr sched _ _ G0 H).
  assert (O := w_order _ _ _ _ (g_waits _ _ _ _ _ _ _ _ _ _ G)). rewrite El in O. clear - O He Hq.
  induction l1 as [|x l1 IH]; cbn [app ordered] in O.
  - destruct He as [->| ->]; destruct O as (O & _); specialize (O q Hq); apply in_app_or in O; rewrite in_dones in O; tauto.
  - destruct x; try (now apply IH); destruct O as (_ & O); now apply IH.
Qed.

(** The packages reached get their types, the others keep what they have. *)
Theorem check_types root chk ty il sched s p : ready refs chk ty il ->
  runs sched (start R root chk ty il) = Some s -> over R s ->
  (reach refs root p -> exists r, typ R s p = TFull R r /\ outcome refs imps result ty p r) /\
  (~ reach refs root p -> typ R s p = ty p /\ ill R s p = il p).
Proof.
  intros Hr H Ho. assert (G0 := good_start R refs imps result bad root chk ty il Hr).
  assert (G := good_runs R refs imps result bad rank Hrank root chk ty il Hr sched _ _ G0 H).
  assert (X := check_exactly root chk ty il sched s p Hr H Ho). destruct X as (C & _ & _ & _ & X).
  destruct G as [T L G W Y E]. split.
  - intros Hp. destruct (y_full _ _ _ _ _ _ Y p (proj2 C (or_intror Hp))) as (r & Er). exists r. split; [easy|].
    assert (Z := y_typ _ _ _ _ _ _ Y p). now rewrite Er in Z.
  - intros Hp. specialize (X (or_introl Hp)). rewrite (y_count _ _ _ _ _ _ Y) in X.
    assert (K := y_keep _ _ _ _ _ _ Y p). assert (Et : typ R s p = ty p).
    { destruct (ty p) eqn:Et; [|now apply K|now apply K]. destruct (typ R s p); easy. }
    split; [easy|]. apply (e_old _ _ _ _ _ _ _ _ E). rewrite Et. destruct Hr as (_ & _ & Hpt & _).
    destruct (ty p) eqn:Ep; [right; easy|left; easy|left; easy].
Qed.

(** Those types are unique, as far as they do not depend on imports that are not
    referenced. *)
Theorem outcome_unique ty p r r' : only_refs refs result ->
  outcome refs imps result ty p r -> outcome refs imps result ty p r' -> r = r'.
Proof.
  intros Ho H. revert r'. induction H as [p r E|p f l E Hf IH Em Hl]; intros r' H'.
  - inversion H'; congruence.
  - inversion H' as [|p' f' l' E' Hf' Em' Hl']; subst; [congruence|]. apply Ho.
    assert (X : forall q, In q (refs p) -> f q = f' q) by (intros q Hq; now apply (IH q Hq), Hf').
    rewrite <- Em' in Em. clear - Em Hl Hl' X. revert l' Em Hl'. induction l as [|(q, v) l IHl]; intros [|(q', v') l'] Em Hl'; cbn in Em; try discriminate Em; [constructor|].
    injection Em as -> Em. constructor.
    + cbn. split; [easy|]. intros Hq. rewrite (Hl q' v), (Hl' q' v'); [now rewrite X|now left|easy|now left|easy].
    + apply IHl; [|easy|]; intros; [apply Hl|apply Hl']; easy || now right.
Qed.

(** A package type-checked is marked ill-typed if go/types reports an error in it or a
    reference is ill-typed, and only if an error is reported or an import is ill-typed. *)
Theorem check_ill root chk ty il sched s p : ready refs chk ty il ->
  runs sched (start R root chk ty il) = Some s -> over R s ->
  reach refs root p -> ty p = TNone R ->
  exists l, typ R s p = TFull R (result p l) /\ map fst l = imps p /\
    (forall q v, In (q, v) l -> In q (refs p) -> exists r, typ R s q = TFull R r /\ v = Some r) /\
    (bad p l = true \/ (exists q, In q (imps p) /\ In q (refs p) /\ ill R s q = true) -> ill R s p = true) /\
    (ill R s p = true -> bad p l = true \/ exists q, In q (imps p) /\ ill R s q = true).
Proof.
  intros Hr H Ho Hp Ht. destruct (check_types root chk ty il sched s p Hr H Ho) as (C & _).
  destruct (C Hp) as (r & Er & _). assert (G0 := good_start R refs imps result bad root chk ty il Hr).
  assert (G := good_runs R refs imps result bad rank Hrank root chk ty il Hr sched _ _ G0 H).
  destruct (e_new _ _ _ _ _ _ _ _ (g_illed _ _ _ _ _ _ _ _ _ _ G) p r Ht Er) as (l & -> & Em & Sm & H1 & H2).
  exists l. easy.
Qed.

(** Calls of Check one after another. *)
Inductive session : list pkg -> list pkg -> (pkg -> types R) -> (pkg -> bool) ->
    list pkg -> (pkg -> types R) -> (pkg -> bool) -> Prop :=
| session_end chk ty il : session [] chk ty il chk ty il
| session_check root roots chk ty il sched s chk' ty' il' :
    runs sched (start R root chk ty il) = Some s -> over R s ->
    session roots (checked R s) (typ R s) (ill R s) chk' ty' il' ->
    session (root :: roots) chk ty il chk' ty' il'.

Lemma check_ready root chk ty il sched s : ready refs chk ty il ->
  runs sched (start R root chk ty il) = Some s -> over R s -> ready refs (checked R s) (typ R s) (ill R s).
Proof.
  intros Hr H Ho. assert (G0 := good_start R refs imps result bad root chk ty il Hr).
  destruct (good_runs R refs imps result bad rank Hrank root chk ty il Hr sched _ _ G0 H) as [T L G W Y E].
  split; [|split; [|split]].
  - apply (w_closed _ _ _ _ W).
  - apply (y_full _ _ _ _ _ _ Y).
  - intros p Ep. assert (X := y_typ _ _ _ _ _ _ Y p). rewrite Ep in X. destruct X as (_ & i & t & Hi & _ & Ec).
    rewrite (over_exit R s i t Ho Hi) in Ec. discriminate Ec.
  - intros p Ep. rewrite (e_old _ _ _ _ _ _ _ _ E); [|right; congruence]. destruct Hr as (_ & _ & _ & Hr). apply Hr.
    assert (X := y_typ _ _ _ _ _ _ Y p). now rewrite Ep in X.
Qed.

Theorem checks_in_turn roots chk ty il chk' ty' il' : ready refs chk ty il ->
  session roots chk ty il chk' ty' il' ->
  ready refs chk' ty' il' /\
  (forall p, In p chk' <-> In p chk \/ exists root, In root roots /\ reach refs root p) /\
  (forall p r, ty p = TFull R r -> ty' p = TFull R r).
Proof.
  intros Hr H. induction H as [|root roots chk ty il sched s chk' ty' il' H Ho Hs IH].
  - split; [easy|]. split; [|easy]. intros p. split; [now left|]. intros [Hp|(r & [] & _)]. easy.
  - assert (Hr' := check_ready root chk ty il sched s Hr H Ho). destruct (IH Hr') as (H1 & H2 & H3).
    split; [easy|]. split.
    + intros p. rewrite H2. destruct (check_exactly root chk ty il sched s p Hr H Ho) as (C & _). rewrite C. split.
      * intros [[Hp|Hp]|(r & Hin & Hp)]; [now left|right; exists root; split; [now left|easy]|right; exists r; split; [now right|easy]].
      * intros [Hp|(r & [->|Hin] & Hp)]; [tauto|tauto|]. right. now exists r.
    + intros p r E. apply H3. assert (G0 := good_start R refs imps result bad root chk ty il Hr).
      destruct (good_runs R refs imps result bad rank Hrank root chk ty il Hr sched _ _ G0 H) as [T L G W Y E'].
      rewrite (y_keep _ _ _ _ _ _ Y); [easy|]. congruence.
Qed.
End Claims.
Print Assumptions check_ends.
Print Assumptions check_exactly.
Print Assumptions check_order.
Print Assumptions check_types.
Print Assumptions outcome_unique.
Print Assumptions check_ill.
Print Assumptions checks_in_turn.

(** ** Cases *)

(** Package 0 references 1 and 2; 1 imports 3 without referencing it; 2 references 3,
    which does not compile. *)
Definition ex_refs (p : pkg) : list pkg := match p with 0 => [1; 2] | 2 => [3] | _ => [] end.
Definition ex_imps (p : pkg) : list pkg := match p with 0 => [1; 2] | 1 => [3] | 2 => [3] | _ => [] end.
Definition ex_rank (p : pkg) : nat := match p with 0 => 2 | 1 => 1 | 2 => 1 | _ => 0 end.
Definition ex_bad (p : pkg) (l : list (pkg * option nat)) : bool := Nat.eqb p 3.
(** The types: how many imports were there. *)
Definition ex_result (p : pkg) (l : list (pkg * option nat)) : nat :=
  List.length (filter (fun a => match snd a with Some _ => true | None => false end) l).
Definition ex_none (p : pkg) : types nat := TNone nat.

Example ex_acyclic : acyclic ex_refs ex_imps ex_rank.
Proof.
  intros p q H. destruct p as [|[|[|p]]]; cbn in H;
    repeat match goal with H : _ \/ _ |- _ => destruct H | H : False |- _ => destruct H end; subst; cbn; lia.
Qed.
Example ex_ready : ready ex_refs [] ex_none (fun _ => false).
Proof. repeat split; easy. Qed.

(** A scheduler: lets the goroutines named go on as far as they can, in turn. *)
Fixpoint greedy (n : nat) (order : list nat) (all : list nat) (s : state nat) : list nat * state nat :=
  match n with
  | 0 => ([], s)
  | S n' =>
      match order with
      | [] => ([], s)
      | i :: rest =>
          match exec nat ex_refs ex_imps ex_result ex_bad i s with
          | Some s' => let (l, s2) := greedy n' all all s' in (i :: l, s2)
          | None => greedy n' rest all s
          end
      end
  end.
Definition ex_start := start nat 0 [] ex_none (fun _ => false).
Definition ex_sched (order : list nat) : list nat := fst (greedy 1000 order order ex_start).

Example ex_run : match runs nat ex_refs ex_imps ex_result ex_bad (ex_sched [0; 1; 2; 3]) ex_start with
  | Some s => over nat s /\ checked nat s = [0; 2; 3; 1]
  | None => False
  end.
Proof. vm_compute. split; reflexivity. Qed.

(** Whether a package counts as ill-typed, and the types seen by one that imports a
    package without referencing it, do depend on the schedule. *)
Theorem check_deterministic_refuted :
  exists sched1 sched2 s1 s2,
    runs nat ex_refs ex_imps ex_result ex_bad sched1 ex_start = Some s1 /\ over nat s1 /\
    runs nat ex_refs ex_imps ex_result ex_bad sched2 ex_start = Some s2 /\ over nat s2 /\
    ill nat s1 1 = false /\ ill nat s2 1 = true /\
    typ nat s1 1 = TFull nat 0 /\ typ nat s2 1 = TFull nat 1.
Proof.
  exists (ex_sched [0; 1; 2; 3]), (ex_sched [0; 2; 3; 1]).
  eexists. eexists. split; [vm_compute; reflexivity|]. split; [vm_compute; reflexivity|].
  split; [vm_compute; reflexivity|]. repeat split; vm_compute; reflexivity.
Qed.
Print Assumptions check_deterministic_refuted.

(** If references have a cycle Check may hang: two packages that reference each other. *)
Theorem check_cycle_refuted :
  exists sched s, runs nat (fun p => match p with 0 => [1] | 1 => [0] | _ => [] end) (fun _ => []) ex_result ex_bad sched ex_start = Some s /\
    ~ over nat s /\ forall i, exec nat (fun p => match p with 0 => [1] | 1 => [0] | _ => [] end) (fun _ => []) ex_result ex_bad i s = None.
Proof.
  exists [0; 0; 0; 0; 1; 1; 1; 1]. eexists. split; [vm_compute; reflexivity|]. split; [vm_compute; discriminate|].
  intros [|[|[|i]]]; try reflexivity. unfold exec. cbn [threads nth_error]. now destruct i.
Qed.
Print Assumptions check_cycle_refuted.

(** Types that do not depend on placeholders, so that [outcome_unique] applies. *)
Example ex_only : only_refs ex_refs (fun (p : pkg) (l : list (pkg * option nat)) =>
  List.length (filter (fun a => mem (fst a) (ex_refs p) && match snd a with Some _ => true | None => false end) l)).
Proof.
  intros p l l' H. induction H as [|(q, v) (q', v') l l' (E1 & E2) _ IH]; [easy|]. cbn in *. subst q'.
  destruct (mem q (ex_refs p)) eqn:E; [|easy]. apply mem_in in E. rewrite <- (E2 E). destruct v; cbn; now rewrite IH.
Qed.
