(** * C51: the markers of a package are collected once and found under its nodes, unless goroutines parse it at the same time *)

From Coq Require Import List Bool Arith Lia.
Import ListNotations.
From Verif Require Import GoLib GoLibFacts MapFacts CacheModel.

(** ** What the properties speak about *)

(** No other goroutine is in the middle of a call. *)
Definition others_idle {V} (i : nat) (s : state V) : Prop :=
  forall j p, j <> i -> nth_error (pcs V s) j = Some p -> p = Idle V.

(** In this schedule no two calls overlap. *)
Fixpoint in_turn {V} content parses valid (l : list nat) (s : state V) : Prop :=
  match l with
  | [] => True
  | i :: l' => others_idle i s /\ in_turn content parses valid l' (step V content parses valid i s)
  end.

(** What every call should return: an error if a marker is wrong; otherwise all values, each at its node.  If the files cannot be
    parsed there are no nodes. *)
Definition right_result {V} (content : list V) (has_syntax valid : bool) : result V :=
  if has_syntax then if valid then Found V (map Some content) else Failed V else Found V [].

(** ** Proofs *)

Section Proofs.
Variable V : Type.
Variable content : list V.
Variable parses valid : bool.
Notation collect := (collect V content).
Notation look_up := (look_up V content).
Notation run := (run V content parses valid).
Notation step := (step V content parses valid).
Notation steps := (steps V content parses valid).

Lemma node_spec a b : anode_eqb a b = true <-> a = b.
Proof.
  unfold anode_eqb. rewrite andb_true_iff, !Nat.eqb_eq. destruct a, b; cbn. split; [now intros [-> ->]|now intros [= -> ->]].
Qed.

Lemma mget_gen (l : list V) : forall k g g' i, mget anode_eqb (combine (map (pair g) (seq k (length l))) l) (g', i) =
  if Nat.eqb g g' && Nat.leb k i then nth_error l (i - k) else None.
Proof.
  induction l as [|v l IH]; intros k g g' i; cbn.
  - now destruct (Nat.eqb g g' && Nat.leb k i), (i - k).
  - unfold anode_eqb at 1. cbn [fst snd]. rewrite (Nat.eqb_sym g' g). destruct (Nat.eqb_spec g g') as [->|N].
    + cbn [andb]. destruct (Nat.eqb_spec i k) as [->|N].
      * now rewrite Nat.leb_refl, Nat.sub_diag.
      * rewrite IH, Nat.eqb_refl. cbn [andb]. destruct (Nat.leb_spec (S k) i), (Nat.leb_spec k i); try lia; auto.
        now replace (i - k) with (S (i - S k)) by lia.
    + cbn [andb]. rewrite IH. now rewrite (proj2 (Nat.eqb_neq g g') N).
Qed.

Lemma mget_collect g g' i : mget anode_eqb (collect (Some g)) (g', i) = if Nat.eqb g g' then nth_error content i else None.
Proof. unfold collect. rewrite mget_gen. cbn [Nat.leb]. now rewrite andb_true_r, Nat.sub_0_r. Qed.

Lemma nth_all (l : list V) : map (nth_error l) (seq 0 (length l)) = map Some l.
Proof.
  induction l as [|v l IH]; cbn; auto. f_equal. rewrite <- seq_shift, map_map. exact IH.
Qed.

Lemma look_same g : look_up (collect (Some g)) (Some g) = map Some content.
Proof.
  rewrite <- (nth_all content). apply map_ext. intros i. now rewrite mget_collect, Nat.eqb_refl.
Qed.

Lemma nth_put {A} i (l : list A) p p' : nth_error l i = Some p ->
  forall j, nth_error (firstn i l ++ p' :: skipn (S i) l) j = if Nat.eqb j i then Some p' else nth_error l j.
Proof.
  revert i. induction l as [|x l IH]; intros [|i] H j; try discriminate H.
  - cbn. now destruct j.
  - cbn. destruct j; auto. apply (IH i H).
Qed.

Lemma step_some i (s : state V) p : nth_error (pcs V s) i = Some p ->
  step i s = mkState V (snd (fst (run p (sh V s)))) (firstn i (pcs V s) ++ fst (fst (run p (sh V s))) :: skipn (S i) (pcs V s))
    (match snd (run p (sh V s)) with Some x => (i, x) :: returned V s | None => returned V s end).
Proof. intros H. unfold CacheModel.step. rewrite H. now destruct (run p (sh V s)) as [[p' h] r]. Qed.

(** *** Whatever the schedule *)

Definition made (t : table V) : Prop := t = [] \/ exists g, t = collect (Some g).
Definition made_pc (p : pc V) : Prop := match p with Collected _ t | Got _ t => made t | _ => True end.
Definition fits (r : result V) : Prop :=
  match r with Failed _ => True | Found _ l => forall i v, nth_error l i = Some (Some v) -> nth_error content i = Some v end.
Definition made_state (s : state V) : Prop :=
  (forall t, cached V (sh V s) = Some t -> made t) /\ (forall i p, nth_error (pcs V s) i = Some p -> made_pc p) /\
  (forall i r, In (i, r) (returned V s) -> fits r).

Lemma made_fits t syn : made t -> fits (Found V (look_up t syn)).
Proof.
  intros M i v. destruct syn as [g|]; [|now destruct i]. cbn [CacheModel.look_up]. intros H.
  rewrite nth_error_map in H. destruct (nth_error (seq 0 (length content)) i) as [k|] eqn:E; [|discriminate]. cbn in H.
  assert (k = i).
  { apply (nth_error_nth _ _ 0) in E as E2. assert (i < length (seq 0 (length content))) by (apply nth_error_Some; congruence).
    rewrite seq_length in H0. rewrite seq_nth in E2 by auto. now rewrite <- E2. }
  subst k. destruct M as [->|[g' ->]]; [discriminate|]. rewrite mget_collect in H. destruct (Nat.eqb g' g); [|discriminate].
  now injection H.
Qed.

Lemma made_step i s : made_state s -> made_state (step i s).
Proof.
  intros (A & B & C). destruct (nth_error (pcs V s) i) as [p|] eqn:E; [|unfold CacheModel.step; now rewrite E].
  rewrite (step_some i s p E). assert (Mp := B i p E).
  enough (X : (forall t, cached V (snd (fst (run p (sh V s)))) = Some t -> made t) /\ made_pc (fst (fst (run p (sh V s)))) /\
              (forall r, snd (run p (sh V s)) = Some r -> fits r)).
  { destruct X as (X1 & X2 & X3). split; [exact X1|split]; cbn [pcs returned].
    - intros j q. rewrite (nth_put i _ p _ E). destruct (Nat.eqb j i); [now intros [= <-]|apply B].
    - intros j r. destruct (snd (run p (sh V s))) as [x|]; [|apply C]. intros [[= _ <-]|H]; [now apply X3|now apply (C j)]. }
  destruct (sh V s) as [ca sy pa wo]. cbn [cached] in A.
  destruct p as [| | |g| |t|t]; cbn [CacheModel.run cached syntax parsed work made_pc] in *.
  - destruct ca as [t|]; cbn [fst snd cached made_pc]; repeat split; auto; discriminate.
  - destruct sy; cbn; repeat split; auto; discriminate.
  - destruct parses; cbn; repeat split; auto; discriminate.
  - cbn. repeat split; auto; discriminate.
  - destruct sy as [g|]; [destruct valid|]; cbn [fst snd cached made_pc]; repeat split; auto; try discriminate.
    + right. now exists g.
    + now intros r [= <-].
    + now left.
  - cbn [fst snd cached made_pc]. repeat split; auto; try discriminate. now intros t' [= <-].
  - cbn [fst snd cached made_pc]. repeat split; auto. intros r [= <-]. now apply made_fits.
Qed.

Lemma steps_ind (P : state V -> Prop) : (forall i s, P s -> P (step i s)) -> forall l s, P s -> P (steps l s).
Proof. intros H. induction l as [|i l IH]; intros s Hs; [exact Hs|]. apply IH, H, Hs. Qed.

Lemma nth_repeat {A} (x : A) n i y : nth_error (repeat x n) i = Some y -> y = x.
Proof. intros H. apply nth_error_In in H. now apply repeat_spec in H. Qed.

Lemma made_start n syn : made_state (start V n syn).
Proof. split; [discriminate|split]; cbn; [|easy]. intros i p H. apply nth_repeat in H. now subst p. Qed.

Definition rank (p : pc V) : nat :=
  match p with Idle _ => 6 | Missed _ => 5 | Parsing _ => 4 | Parsed _ _ => 3 | Ready _ => 2 | Collected _ _ => 1 | Got _ _ => 0 end.

Lemma rank_run p h : match snd (run p h) with Some _ => True | None => rank (fst (fst (run p h))) < rank p end.
Proof.
  destruct p as [| | |g| |t|t], h as [ca sy pa wo]; cbn; auto.
  - destruct ca; cbn; lia.
  - destruct sy; cbn; lia.
  - destruct parses; cbn; lia.
  - destruct sy; [destruct valid|]; cbn; auto; lia.
Qed.

Lemma returned_app l : forall s, exists new, returned V (steps l s) = new ++ returned V s.
Proof.
  induction l as [|i l IH]; intros s; [now exists []|]. change (steps (i :: l) s) with (steps l (step i s)). destruct (IH (step i s)) as [new E]. rewrite E.
  unfold CacheModel.step. destruct (nth_error (pcs V s) i) as [p|]; [|now exists new].
  destruct (run p (sh V s)) as [[p' h] [x|]]; cbn [returned]; [|now exists new]. exists (new ++ [(i, x)]). now rewrite <- app_assoc.
Qed.

Lemma returns_rank i l : forall s p, nth_error (pcs V s) i = Some p -> rank p < count_occ Nat.eq_dec l i ->
  exists new r, returned V (steps l s) = new ++ returned V s /\ In (i, r) new.
Proof.
  induction l as [|j l IH]; intros s p E H; [cbn in H; lia|]. cbn [count_occ] in H. change (steps (j :: l) s) with (steps l (step j s)).
  destruct (nth_error (pcs V s) j) as [q|] eqn:Ej.
  - rewrite (step_some j s q Ej). set (s' := mkState _ _ _ _).
    assert (Pi : nth_error (pcs V s') i = if Nat.eqb i j then Some (fst (fst (run q (sh V s)))) else Some p).
    { unfold s'. cbn [pcs]. rewrite (nth_put j _ q _ Ej). now rewrite E. }
    destruct (Nat.eq_dec j i) as [->|N].
    + rewrite Nat.eqb_refl in Pi. rewrite E in Ej. injection Ej as <-. assert (R := rank_run p (sh V s)).
      destruct (snd (run p (sh V s))) as [x|] eqn:X.
      * destruct (returned_app l s') as [new En]. exists (new ++ [(i, x)]), x. split.
        -- rewrite En. unfold s'. cbn [returned]. now rewrite <- app_assoc.
        -- apply in_or_app. right. now left.
      * destruct (IH s' _ Pi ltac:(lia)) as (new & r & En & I). exists new, r. split; auto.
    + rewrite (proj2 (Nat.eqb_neq i j)) in Pi by auto. destruct (IH s' _ Pi ltac:(lia)) as (new & r & En & I).
      destruct (snd (run q (sh V s))) as [x|].
      * exists (new ++ [(j, x)]), r. split; [rewrite En; unfold s'; cbn [returned]; now rewrite <- app_assoc|apply in_or_app; auto].
      * exists new, r. auto.
  - assert (j <> i) by congruence. destruct (Nat.eq_dec j i); [easy|]. unfold CacheModel.step. rewrite Ej. now apply (IH s p).
Qed.

(** *** The package has been parsed before *)

Definition ready (s : state V) : Prop :=
  syntax V (sh V s) = Some 0 /\ (forall t, cached V (sh V s) = Some t -> t = collect (Some 0)) /\ (cached V (sh V s) <> None -> valid = true) /\
  (forall i p, nth_error (pcs V s) i = Some p ->
     match p with Parsing _ | Parsed _ _ => False | Collected _ t | Got _ t => t = collect (Some 0) /\ valid = true | _ => True end) /\
  (forall i r, In (i, r) (returned V s) -> r = right_result content true valid).

Lemma ready_step i s : ready s -> ready (step i s).
Proof.
  intros (S0 & A & Av & B & C). destruct (nth_error (pcs V s) i) as [p|] eqn:E; [|unfold CacheModel.step; now rewrite E].
  rewrite (step_some i s p E). assert (Mp := B i p E).
  assert (K : forall h p' r, run p (sh V s) = (p', h, r) -> syntax V h = Some 0 -> (forall t, cached V h = Some t -> t = collect (Some 0)) ->
    (cached V h <> None -> valid = true) ->
    match p' with Parsing _ | Parsed _ _ => False | Collected _ t | Got _ t => t = collect (Some 0) /\ valid = true | _ => True end ->
    (forall x, r = Some x -> x = right_result content true valid) ->
    ready (mkState V (snd (fst (run p (sh V s)))) (firstn i (pcs V s) ++ fst (fst (run p (sh V s))) :: skipn (S i) (pcs V s))
    (match snd (run p (sh V s)) with Some x => (i, x) :: returned V s | None => returned V s end))).
  { intros h p' r R H1 H2 H3 H4 H5. rewrite R. cbn [fst snd]. split; [exact H1|split; [exact H2|split; [exact H3|split]]]; cbn [pcs returned].
    - intros j q. rewrite (nth_put i _ p _ E). destruct (Nat.eqb j i); [now intros [= <-]|apply B].
    - intros j x. destruct r as [y|]; [|apply C]. intros [[= _ <-]|H]; [now apply H5|now apply (C j)]. }
  destruct (sh V s) as [ca sy pa wo]. cbn [cached syntax] in *. subst sy.
  destruct p as [| | |g| |t|t]; cbn [CacheModel.run cached syntax parsed work] in *; try contradiction.
  - destruct ca as [t|]; eapply K; try reflexivity; cbn; auto; try discriminate. split; auto. now apply Av.
  - eapply K; try reflexivity; cbn; auto; discriminate.
  - destruct valid eqn:Ev; eapply K; try reflexivity; cbn [cached]; auto; try discriminate. now intros x [= <-].
  - destruct Mp as [-> Vt]. eapply K; try reflexivity; cbn [cached]; auto; try discriminate. now intros t [= <-].
  - destruct Mp as [-> Vt]. eapply K; try reflexivity; cbn [cached]; auto; try discriminate. intros x [= <-]. unfold right_result.
    rewrite Vt. exact (f_equal (Found V) (look_same 0)).
Qed.

Lemma ready_start n : ready (start V n true).
Proof. split; [reflexivity|split; [discriminate|split; [now cbn|split]]]; cbn; [|easy]. intros i p H. apply nth_repeat in H. now subst p. Qed.

(** *** One call at a time *)

Definition active (l : list (pc V)) : pc V :=
  match find (fun p => match p with Idle _ => false | _ => true end) l with Some p => p | None => Idle V end.

Lemma active_alone : forall l i p, nth_error l i = Some p -> (forall j q, j <> i -> nth_error l j = Some q -> q = Idle V) -> active l = p.
Proof.
  unfold active. induction l as [|x l IH]; intros [|i] p H O; try discriminate H; cbn in *.
  - injection H as ->. destruct p; auto. assert (F : find (fun p => match p with Idle _ => false | _ => true end) l = None).
    { destruct (find _ l) as [q|] eqn:F; auto. apply find_some in F as [F1 F2]. apply In_nth_error in F1 as [j Fj].
      rewrite (O (S j) q) in F2; auto; discriminate. }
    now rewrite F.
  - rewrite (O 0 x) by auto. apply (IH i); auto. intros j q N. apply (O (S j) q). auto.
Qed.

Definition agrees (h : shared V) (t : table V) : Prop :=
  match syntax V h with Some g => valid = true /\ t = collect (Some g) | None => parses = false /\ t = [] end.

(** Not yet parsed, or so that it need not be parsed again. *)
Definition fresh (h : shared V) : Prop :=
  cached V h = None /\ (valid = true -> work V h = 0) /\ (parsed V h = match syntax V h with Some _ => 1 | None => 0 end).

Definition little (h : shared V) : Prop := (valid = true -> work V h <= 1) /\ parsed V h <= 1.

Definition good (p : pc V) (h : shared V) : Prop :=
  match p with
  | Idle _ => fresh h \/ exists t, cached V h = Some t /\ agrees h t /\ little h
  | Missed _ => fresh h
  | Parsing _ => fresh h /\ syntax V h = None
  | Parsed _ g => cached V h = None /\ (valid = true -> work V h = 0) /\ parsed V h = 1 /\ syntax V h = None /\ parses = true
  | Ready _ => cached V h = None /\ (valid = true -> work V h = 0) /\ parsed V h = 1 /\ (syntax V h = None -> parses = false)
  | Collected _ t => cached V h = None /\ agrees h t /\ little h
  | Got _ t => cached V h = Some t /\ agrees h t /\ little h
  end.

Lemma good_little p h : good p h -> little h.
Proof.
  unfold little, fresh. destruct p; cbn; unfold fresh, little; intros H.
  - destruct H as [(_ & A & B)|(t & _ & _ & H)]; auto. split; [intros X; rewrite (A X); lia|rewrite B; destruct (syntax V h); lia].
  - destruct H as (_ & A & B). split; [intros X; rewrite (A X); lia|rewrite B; destruct (syntax V h); lia].
  - destruct H as [(_ & A & B) _]. split; [intros X; rewrite (A X); lia|rewrite B; destruct (syntax V h); lia].
  - destruct H as (_ & A & B & _). split; [intros X; rewrite (A X); lia|lia].
  - destruct H as (_ & A & B & _). split; [intros X; rewrite (A X); lia|lia].
  - tauto.
  - tauto.
Qed.

(** Whether there is a syntax in the end. *)
Definition kept (syn0 : bool) (h : shared V) : Prop :=
  (syntax V h = None -> syn0 = false) /\ (syntax V h <> None -> syn0 || parses = true).

Lemma good_run syn0 p h p' h' r : run p h = (p', h', r) -> good p h -> kept syn0 h ->
  good p' h' /\ kept syn0 h' /\ (forall x, r = Some x -> x = right_result content (syn0 || parses) valid).
Proof.
  destruct h as [ca sy pa wo]. intros R G [K1 K2].
  destruct p as [| | |g| |t|t]; cbn [CacheModel.run cached syntax parsed work] in *; unfold fresh, little, agrees, kept in *;
    cbn [good cached syntax parsed work] in *; unfold fresh, little, agrees in *; cbn [cached syntax parsed work] in *.
  - destruct ca as [t|]; injection R as <- <- <-; cbn [good cached syntax parsed work]; unfold fresh, little, agrees; cbn [cached syntax parsed work];
      (split; [|split; [auto|discriminate]]).
    + destruct G as [[X _]|(t' & [= <-] & G)]; [discriminate|auto].
    + destruct G as [G|(t' & [=] & G)]; auto.
  - destruct sy as [g|]; injection R as <- <- <-; cbn [good cached syntax parsed work]; unfold fresh; cbn [cached syntax parsed work];
      (split; [|split; [auto|discriminate]]); repeat split; try tauto; discriminate.
  - destruct G as [G ->]. destruct parses eqn:Ep; injection R as <- <- <-; cbn [good cached syntax parsed work];
      (split; [|split; [auto|discriminate]]); repeat split; try tauto; lia.
  - destruct G as (-> & G1 & -> & -> & Ep). injection R as <- <- <-. cbn [good cached syntax parsed work].
    split; [repeat split; auto; discriminate|]. split; [|discriminate]. split; [discriminate|]. intros _. rewrite Ep. apply orb_true_r.
  - destruct G as (-> & G1 & -> & G2). destruct sy as [g|].
    + destruct valid eqn:Ev; injection R as <- <- <-; cbn [good cached syntax parsed work]; unfold fresh, little, agrees; cbn [cached syntax parsed work].
      * rewrite G1 by auto. split; [repeat split; auto|]. split; [split; [discriminate|auto]|discriminate].
      * split; [left; repeat split; auto; congruence|]. split; [split; [discriminate|auto]|]. intros x [= <-]. unfold right_result.
        now rewrite K2.
    + injection R as <- <- <-; cbn [good cached syntax parsed work]; unfold fresh, little, agrees; cbn [cached syntax parsed work].
      split; [repeat split; auto; intros X; rewrite G1; auto|]. split; [split; [auto|congruence]|discriminate].
  - destruct G as (-> & G1 & G2). injection R as <- <- <-; cbn [good cached syntax parsed work]; unfold fresh, little, agrees; cbn [cached syntax parsed work].
    split; [tauto|]. split; [auto|discriminate].
  - destruct G as (-> & G1 & G2). injection R as <- <- <-; cbn [good cached syntax parsed work]; unfold fresh, little, agrees; cbn [cached syntax parsed work].
    split; [right; exists t; tauto|]. split; [auto|]. intros x [= <-]. unfold right_result. destruct sy as [g|].
    + rewrite K2 by discriminate. destruct G1 as [-> ->]. exact (f_equal (Found V) (look_same g)).
    + destruct G1 as [-> ->]. now rewrite K1.
Qed.

Definition orderly (syn0 : bool) (s : state V) : Prop :=
  good (active (pcs V s)) (sh V s) /\ kept syn0 (sh V s) /\
  (forall i r, In (i, r) (returned V s) -> r = right_result content (syn0 || parses) valid).

Lemma orderly_step syn0 i s : others_idle i s -> orderly syn0 s -> orderly syn0 (step i s).
Proof.
  intros O (A & B & C). destruct (nth_error (pcs V s) i) as [p|] eqn:E; [|unfold CacheModel.step; now rewrite E].
  rewrite (step_some i s p E). rewrite (active_alone _ i p E O) in A. destruct (run p (sh V s)) as [[p' h'] r] eqn:R. cbn [fst snd].
  destruct (good_run syn0 p _ p' h' r R A B) as (A' & B' & C'). split; [|split; [exact B'|]]; cbn [pcs sh returned].
  - rewrite (active_alone _ i p'); auto.
    + now rewrite (nth_put i _ p _ E), Nat.eqb_refl.
    + intros j q N. rewrite (nth_put i _ p _ E), (proj2 (Nat.eqb_neq j i) N). now apply O.
  - intros j x. destruct r as [y|]; [|apply C]. intros [[= _ <-]|H]; [now apply C'|now apply (C j)].
Qed.

Lemma orderly_steps syn0 l : forall s, in_turn content parses valid l s -> orderly syn0 s -> orderly syn0 (steps l s).
Proof.
  induction l as [|i l IH]; intros s; [now intros _ H|]. cbn [in_turn]. intros [O T] H. apply IH; auto. now apply orderly_step.
Qed.

Lemma orderly_start n syn : orderly syn (start V n syn).
Proof.
  split; [|split; [|easy]].
  - assert (X : active (pcs V (start V n syn)) = Idle V).
    { unfold active. destruct (find _ _) as [q|] eqn:F; auto. apply find_some in F as [F1 F2]. cbn in F1. apply repeat_spec in F1. now subst q. }
    rewrite X. left. unfold fresh. cbn. now destruct syn.
  - unfold kept. cbn. destruct syn; split; auto; congruence.
Qed.

End Proofs.

(** ** The theorems *)

(** A call returns after at most seven steps of its own, whatever the others do: nobody waits. *)
Theorem call_returns V content parses valid l i (s : state V) : i < length (pcs V s) -> 7 <= count_occ Nat.eq_dec l i ->
  exists new r, returned V (steps V content parses valid l s) = new ++ returned V s /\ In (i, r) new.
Proof.
  intros L C. destruct (nth_error (pcs V s) i) as [p|] eqn:E; [|apply nth_error_None in E; lia].
  apply (returns_rank V content parses valid i l s p E). destruct p; cbn; lia.
Qed.

(** Whatever the schedule, what is found at a node is what belongs there. *)
Theorem nothing_invented V content parses valid n syn l i (found : list (option V)) k v :
  In (i, Found V found) (returned V (steps V content parses valid l (start V n syn))) ->
  nth_error found k = Some (Some v) -> nth_error content k = Some v.
Proof.
  intros H. assert (M := steps_ind V content parses valid _ (made_step V content parses valid) l _ (made_start V content n syn)).
  destruct M as (_ & _ & M). exact (M i _ H k v).
Qed.

(** One call at a time: all calls give the same, right, result; the files are parsed at most once, and the markers, if they are
    right, too. *)
Theorem in_turn_right V content parses valid n syn l s :
  in_turn content parses valid l (start V n syn) -> s = steps V content parses valid l (start V n syn) ->
  (forall i r, In (i, r) (returned V s) -> r = right_result content (syn || parses) valid) /\
  parsed V (sh V s) <= 1 /\ (valid = true -> work V (sh V s) <= 1).
Proof.
  intros T ->. destruct (orderly_steps V content parses valid syn l _ T (orderly_start V content parses valid n syn)) as (A & _ & C).
  apply good_little in A. destruct A. auto.
Qed.

(** Any schedule, if the package was parsed before: the same. *)
Theorem parsed_right V content parses valid n l i r :
  In (i, r) (returned V (steps V content parses valid l (start V n true))) -> r = right_result content true valid.
Proof.
  intros H. destruct (steps_ind V content parses valid _ (ready_step V content parses valid) l _ (ready_start V content valid n)) as (_ & _ & _ & _ & C).
  now apply (C i).
Qed.

(** ** What does not hold *)

(** "It is safe to call this from different goroutines": two goroutines parse the package, and the second replaces the nodes of the
    first, whose table comes last.  Then the markers are lost, also for all later calls. *)
Definition lost : list nat := [0; 0; 0; 1; 1; 1; 0; 0; 1; 1; 1; 0; 0].

Theorem markers_concurrent_refuted : ~ (forall l i r, In (i, r) (returned nat (steps nat [5] true true l (start nat 2 false))) ->
  r = right_result [5] true true).
Proof. intros H. specialize (H lost 0 (Found nat [None])). discriminate H. vm_compute. auto. Qed.

Theorem markers_lost_for_good_refuted : ~ (forall l l', pcs nat (steps nat [5] true true l (start nat 2 false)) = [Idle nat; Idle nat] ->
  in_turn [5] true true l' (steps nat [5] true true l (start nat 2 false)) ->
  forall i r, In (i, r) (firstn 1 (returned nat (steps nat [5] true true (l ++ l') (start nat 2 false)))) -> r = right_result [5] true true).
Proof.
  intros H. specialize (H (lost ++ [1]) [1; 1] eq_refl).
  assert (T : in_turn [5] true true [1; 1] (steps nat [5] true true (lost ++ [1]) (start nat 2 false))).
  { split; [|split; [|exact I]]; intros [|[|j]] p N E; vm_compute in E; try congruence; now destruct j. }
  specialize (H T 1 (Found nat [None])). discriminate H. vm_compute. auto.
Qed.

(** "Wrong markers are reported once". *)
Theorem errors_once_refuted : ~ (forall l, in_turn [5] true false l (start nat 1 false) ->
  List.length (filter (fun x => match snd x with Failed _ => true | _ => false end) (returned nat (steps nat [5] true false l (start nat 1 false)))) <= 1).
Proof.
  intros H. specialize (H [0; 0; 0; 0; 0; 0; 0; 0]). enough (X : 2 <= 1) by lia. apply H.
  cbn [in_turn]. repeat split; intros [|j] p N E; try congruence; vm_compute in E; now destruct j.
Qed.

(** ** Examples *)

(** Two calls after each other, of a package with three nodes. *)
Example two_calls : in_turn [7; 8; 9] true true [0; 0; 0; 0; 0; 0; 0; 1; 1] (start nat 2 false) /\
  returned nat (steps nat [7; 8; 9] true true [0; 0; 0; 0; 0; 0; 0; 1; 1] (start nat 2 false)) =
  [(1, Found nat [Some 7; Some 8; Some 9]); (0, Found nat [Some 7; Some 8; Some 9])].
Proof.
  split; [|reflexivity]. cbn [in_turn]. repeat split; intros [|[|j]] p N E; try congruence; vm_compute in E; try congruence; now destruct j.
Qed.

(** Two goroutines at the same time, the package parsed before. *)
Example at_once : returned nat (steps nat [7; 8] true true [0; 1; 0; 1; 0; 0; 1; 0; 1; 1] (start nat 2 true)) =
  [(1, Found nat [Some 7; Some 8]); (0, Found nat [Some 7; Some 8])].
Proof. reflexivity. Qed.

Print Assumptions call_returns.
Print Assumptions nothing_invented.
Print Assumptions in_turn_right.
Print Assumptions parsed_right.
Print Assumptions markers_concurrent_refuted.
Print Assumptions markers_lost_for_good_refuted.
Print Assumptions errors_once_refuted.
