(** * Parsing the files of a package: proofs *)

From Coq Require Import List Bool Arith Lia.
Import ListNotations.
From Verif Require Import SyntaxModel SyntaxSpec.
Open Scope nat_scope.
Open Scope list_scope.

(** ** Lists *)

Lemma set_nth_length {A} (l : list A) i x : length (set_nth i x l) = length l.
Proof. revert i. induction l as [|y l IH]; intros [|i]; cbn; auto. Qed.

Lemma nth_error_set_nth {A} (l : list A) i j x :
  nth_error (set_nth i x l) j = if Nat.eqb i j then (if Nat.ltb j (length l) then Some x else None) else nth_error l j.
Proof.
  revert i j. induction l as [|y l IH]; intros [|i] [|j]; cbn; auto.
  - now destruct (Nat.eqb i j).
  - rewrite IH. destruct (Nat.eqb i j); auto.
Qed.

Lemma nth_set_nth {A} (l : list A) i j x d :
  nth j (set_nth i x l) d = if Nat.eqb i j then (if Nat.ltb j (length l) then x else d) else nth j l d.
Proof.
  revert i j. induction l as [|y l IH]; intros [|i] [|j]; cbn; auto.
  - now destruct (Nat.eqb i j).
  - rewrite IH. destruct (Nat.eqb i j); auto.
Qed.

Lemma filter_length_le {A} (f : A -> bool) l : length (filter f l) <= length l.
Proof. induction l as [|x l IH]; cbn; auto. destruct (f x); cbn; lia. Qed.

(** ** Arrays *)

Section Heap.
Variable E : Type.

Definition slot (h : heap E) (a k : nat) : option E :=
  match nth_error (nth a h []) k with Some (Some e) => Some e | _ => None end.
Definition cap (h : heap E) (a : nat) : nat := length (nth a h []).

Lemma append_facts grow h l e h' l' :
  append E grow h l e = (h', l') -> sl_array l < length h -> sl_len l <= cap h (sl_array l) ->
  sl_len l' = S (sl_len l) /\ sl_array l' < length h' /\ S (sl_len l) <= cap h' (sl_array l') /\
  length h <= length h' /\
  (sl_array l' = sl_array l /\ length h' = length h \/ sl_array l' = length h /\ length h' = S (length h)) /\
  (forall a, a < length h -> cap h' a = cap h a) /\
  slot h' (sl_array l') (sl_len l) = Some e /\
  (forall k, k < sl_len l -> slot h' (sl_array l') k = slot h (sl_array l) k) /\
  (forall a k, a < length h -> a <> sl_array l' \/ k <> sl_len l -> slot h' a k = slot h a k) /\
  (forall k, sl_array l' = length h -> sl_len l < k -> slot h' (sl_array l') k = None).
Proof.
  unfold append. intros H Ha Hc. unfold cap in *.
  destruct (Nat.ltb (sl_len l) (length (nth (sl_array l) h []))) eqn:L; injection H as <- <-; cbn [sl_len sl_array].
  - apply Nat.ltb_lt in L. rewrite set_nth_length.
    assert (N : forall a, nth a (set_nth (sl_array l) (set_nth (sl_len l) (Some e) (nth (sl_array l) h [])) h) []
                = if Nat.eqb (sl_array l) a then set_nth (sl_len l) (Some e) (nth (sl_array l) h []) else nth a h []).
    { intros a. rewrite nth_set_nth. destruct (Nat.eqb_spec (sl_array l) a) as [<-|]; auto.
      apply Nat.ltb_lt in Ha. now rewrite Ha. }
    repeat split; auto; try lia.
    + rewrite N, Nat.eqb_refl, set_nth_length. lia.
    + intros a _. rewrite N. destruct (Nat.eqb_spec (sl_array l) a) as [<-|]; auto. apply set_nth_length.
    + unfold slot. rewrite N, Nat.eqb_refl, nth_error_set_nth, Nat.eqb_refl. apply Nat.ltb_lt in L. now rewrite L.
    + intros k Hk. unfold slot. rewrite N, Nat.eqb_refl, nth_error_set_nth.
      destruct (Nat.eqb_spec (sl_len l) k); [lia|easy].
    + intros a k Hak Hne. unfold slot. rewrite N. destruct (Nat.eqb_spec (sl_array l) a) as [<-|]; auto.
      rewrite nth_error_set_nth. destruct (Nat.eqb_spec (sl_len l) k); [|easy]. destruct Hne; congruence.
  - apply Nat.ltb_ge in L. rewrite app_length. cbn [length].
    assert (N : forall a, nth a (h ++ [firstn (sl_len l) (nth (sl_array l) h []) ++ Some e :: repeat None (grow (sl_len l))]) []
                = if Nat.eqb a (length h) then firstn (sl_len l) (nth (sl_array l) h []) ++ Some e :: repeat None (grow (sl_len l)) else nth a h []).
    { intros a. destruct (Nat.eqb_spec a (length h)) as [->|].
      - now rewrite app_nth2, Nat.sub_diag by lia.
      - destruct (Nat.lt_ge_cases a (length h)). now rewrite app_nth1.
        rewrite app_nth2, (nth_overflow h [] (n := a)) by lia. apply nth_overflow. cbn. lia. }
    assert (FL : length (firstn (sl_len l) (nth (sl_array l) h [])) = sl_len l) by (rewrite firstn_length; lia).
    repeat split; auto; try lia.
    + rewrite N, Nat.eqb_refl, app_length. cbn. lia.
    + intros a La. rewrite N. destruct (Nat.eqb_spec a (length h)); [lia|easy].
    + unfold slot. rewrite N, Nat.eqb_refl, nth_error_app2, FL, Nat.sub_diag by lia. easy.
    + intros k Hk. unfold slot. rewrite N, Nat.eqb_refl, nth_error_app1 by lia.
      enough (X : nth_error (firstn (sl_len l) (nth (sl_array l) h [])) k = nth_error (nth (sl_array l) h []) k) by now rewrite X.
      clear -Hk. revert Hk. generalize (sl_len l) as n. generalize (nth (sl_array l) h []) as a. intros a.
      revert a. induction k; intros [|x a] [|n] L; cbn; auto; try lia. apply IHk. lia.
    + intros a k Hak _. unfold slot. rewrite N. destruct (Nat.eqb_spec a (length h)); [lia|easy].
    + intros k _ Hk. unfold slot. rewrite N, Nat.eqb_refl, nth_error_app2, FL by lia.
      replace (k - sl_len l) with (S (k - sl_len l - 1)) by lia. cbn.
      destruct (nth_error (repeat None (grow (sl_len l))) (k - sl_len l - 1)) as [x|] eqn:X; auto.
      apply nth_error_In, repeat_spec in X. now subst.
Qed.

(** A slice of known contents. *)
Lemma holds_slot h s (l : list E) : holds h s l <->
  sl_array s < length h /\ sl_len s = length l /\ sl_len s <= cap h (sl_array s) /\
  forall k, k < length l -> slot h (sl_array s) k = nth_error l k.
Proof.
  unfold holds, entries, cap, slot. generalize (nth (sl_array s) h []) as a. intros a. split.
  - intros (A & B & C). split; auto. split; auto.
    assert (L := f_equal (@length _) C). rewrite map_length, firstn_length in L. split. lia.
    intros k Hk. rewrite B in C. clear -C Hk. revert l C Hk.
    revert a. induction k as [|k IH]; intros [|x a] [|y l] C Hk; cbn in *; try lia; try discriminate.
    + injection C as -> _. reflexivity.
    + injection C as _ C. apply IH; auto. lia.
  - intros (A & B & C & D). split; auto. split; auto. rewrite B in *. clear -C D. revert a C D.
    induction l as [|y l IH]; intros [|x a] C D; cbn in *; auto; try lia.
    assert (D0 := D 0). cbn in D0. destruct x; [|now specialize (D0 ltac:(lia))]. f_equal. apply D0; lia.
    apply IH. lia. intros k Hk. apply (D (S k)). lia.
Qed.
End Heap.

(** ** Sums *)

Fixpoint sumf (f : nat -> nat) (n : nat) : nat := match n with 0 => 0 | S n' => sumf f n' + f n' end.

Lemma sumf_eq f g n : (forall i, i < n -> f i = g i) -> sumf f n = sumf g n.
Proof. induction n as [|n IH]; intros H; cbn; auto. rewrite IH, (H n) by (auto; lia). reflexivity. Qed.

Lemma sumf_less f g n i : i < n -> g i < f i -> (forall j, j < n -> j <> i -> f j = g j) -> sumf g n < sumf f n.
Proof.
  revert i. induction n as [|n IH]; intros i Hi L H; [lia|]. cbn.
  destruct (Nat.eq_dec i n) as [->|N].
  - rewrite (sumf_eq g f n); [lia|]. intros j Hj. symmetry. apply H; lia.
  - assert (sumf g n < sumf f n) by (apply IH with i; auto; lia).
    rewrite (H n) by lia. lia.
Qed.

Section Run.
Variables Name F E : Type.
Variable parse : Name -> F + list E.
Variable grow : nat -> nat.
Variable files : list Name.

Notation n := (length files).
Notation rep := (reported parse files).
Notation state := (state F E).
Notation gpc := (gpc E).
Notation exec := (exec Name F E parse grow files).
Notation runs := (runs Name F E parse grow files).
Notation go := (s_go F E).
Notation main := (s_main F E).
Notation out := (s_out F E).

(** ** Control *)

Definition suffix (es l : list E) : Prop := exists pre, l = pre ++ es.

(** What is known of a goroutine, and of its element of out. *)
Definition pcok (i : nat) (c : gpc) (o : option F) : Prop :=
  exists f, nth_error files i = Some f /\
  match c with
  | Parse _ => o = None
  | Add _ es => o = None /\ exists es0, parse f = inr es0 /\ suffix es es0
  | Append _ _ e es => o = None /\ exists es0, parse f = inr es0 /\ suffix (e :: es) es0
  | Store _ _ es => o = None /\ exists es0 e, parse f = inr es0 /\ suffix (e :: es) es0
  | Done _ | Exit _ => match parse f with inl t => o = Some t | inr _ => o = None end
  end.

Definition is_exit (c : gpc) : bool := match c with Exit _ => true | _ => false end.
Definition exits (l : list gpc) : nat := length (filter is_exit l).

Record ctl (s : state) : Prop := mkCtl {
  ctl_go : length (go s) <= n;
  ctl_out : length (out s) = n;
  ctl_wg : s_wg F E s + exits (go s) = n;
  ctl_main : match main s with
             | Begin => False
             | Spawn i => i = length (go s)
             | Wait => length (go s) = n
             | Check | Returned => length (go s) = n /\ s_wg F E s = 0
             end;
  ctl_syntax : s_syntax F E s = match main s with Returned => all_files F (out s) | _ => None end;
  ctl_pc : forall i c o, nth_error (go s) i = Some c -> nth_error (out s) i = Some o -> pcok i c o;
  ctl_rest : forall i o, length (go s) <= i -> nth_error (out s) i = Some o -> o = None }.

Lemma exits_set l i c c' : nth_error l i = Some c -> is_exit c = false ->
  exits (set_nth i c' l) = (if is_exit c' then 1 else 0) + exits l.
Proof.
  unfold exits. revert i. induction l as [|x l IH]; intros [|i] H Hc; cbn in *; try discriminate.
  - injection H as ->. rewrite Hc. now destruct (is_exit c').
  - destruct (is_exit x); cbn; rewrite (IH i H Hc); lia.
Qed.

Lemma exits_app l c : is_exit c = false -> exits (l ++ [c]) = exits l.
Proof. unfold exits. rewrite filter_app. cbn. intros ->. now rewrite app_nil_r. Qed.

Lemma exits_all l : exits l = length l -> forall i c, nth_error l i = Some c -> is_exit c = true.
Proof.
  unfold exits. induction l as [|x l IH]; cbn; intros H [|i] c Hc; cbn in *; try discriminate;
    assert (B := filter_length_le is_exit l); destruct (is_exit x) eqn:X; cbn in H; try lia.
  - now injection Hc as <-.
  - apply (IH ltac:(lia) i c Hc).
Qed.

Lemma exits_some l : exits l < length l -> exists i c, nth_error l i = Some c /\ is_exit c = false.
Proof.
  unfold exits. induction l as [|x l IH]; cbn; [lia|]. destruct (is_exit x) eqn:X; cbn; intros H.
  - destruct IH as (i & c & A & B); [lia|]. now exists (S i), c.
  - now exists 0, x.
Qed.

(** A step of a goroutine that changes its program counter to [c'] and out to [o']. *)
Lemma ctl_goto s i c c' h e o' :
  ctl s -> nth_error (go s) i = Some c -> is_exit c = false -> is_exit c' = false ->
  length o' = length (out s) -> (forall j, j <> i -> nth_error o' j = nth_error (out s) j) ->
  (forall o, nth_error o' i = Some o -> pcok i c' o) ->
  ctl (mkState F E h e o' (s_wg F E s) (s_syntax F E s) (set_nth i c' (go s)) (main s)).
Proof.
  intros [G O W M S P R] Hc X X' L D K. constructor; cbn [s_go s_out s_wg s_main s_syntax]; try rewrite set_nth_length; auto.
  - congruence.
  - now rewrite (exits_set _ _ _ _ Hc X), X'.
  - rewrite S. destruct (main s); auto. exfalso. destruct M as [M1 M2].
    assert (Y := exits_all (go s) ltac:(lia) _ _ Hc). congruence.
  - intros j cj oj. rewrite nth_error_set_nth. destruct (Nat.eqb_spec i j) as [<-|Ne].
    + destruct (Nat.ltb i (length (go s))); [|discriminate]. intros [= <-]. apply K.
    + rewrite D by auto. apply P.
  - intros j oj Hj. assert (i < length (go s)) by (apply nth_error_Some; congruence). rewrite D by lia. now apply R.
Qed.

Lemma ctl_step w s s' : ctl s -> exec w s = Some s' -> ctl s'.
Proof.
  intros C. destruct w as [i|]; cbn [SyntaxModel.exec].
  - unfold go_step. destruct (nth_error (go s) i) as [c|] eqn:Hc; [|discriminate].
    assert (Hi : i < length (go s)) by (apply nth_error_Some; congruence).
    assert (Ho : exists o, nth_error (out s) i = Some o).
    { destruct (nth_error (out s) i) eqn:X; eauto. apply nth_error_None in X.
      rewrite (ctl_out s C) in X. assert (Z := ctl_go s C). lia. }
    destruct Ho as [o Ho]. assert (P := ctl_pc s C i c o Hc Ho). destruct P as (f & Hf & P). rewrite Hf.
    assert (G := ctl_goto s i c).
    destruct c as [|[|e es]|l e es|l es| |]; try discriminate.
    + destruct (parse f) as [t|es] eqn:Pf; intros [= <-]; apply G; auto.
      * apply set_nth_length.
      * intros j Hj. rewrite nth_error_set_nth. destruct (Nat.eqb_spec i j); [congruence|easy].
      * intros o'. rewrite nth_error_set_nth, Nat.eqb_refl. destruct (Nat.ltb i _); [|discriminate]. intros [= <-].
        exists f. now rewrite Pf.
      * intros o'. rewrite Ho. intros [= <-]. exists f. split; auto. split; auto. exists es. split; auto. now exists [].
    + intros [= <-]. apply G; auto. intros o'. rewrite Ho. intros [= <-]. exists f. split; auto.
      destruct P as (-> & es0 & -> & _). reflexivity.
    + intros [= <-]. apply G; auto. intros o'. rewrite Ho. intros [= <-]. now exists f.
    + destruct (append E grow (s_heap F E s) l e) as [h' l']. intros [= <-]. apply G; auto. intros o'. rewrite Ho. intros [= <-].
      exists f. split; auto. destruct P as (-> & es0 & A & B). split; auto. now exists es0, e.
    + intros [= <-]. apply G; auto. intros o'. rewrite Ho. intros [= <-]. exists f. split; auto.
      destruct P as (-> & es0 & e & A & pre & B). split; auto. exists es0. split; auto. exists (pre ++ [e]). now rewrite <- app_assoc.
    + intros [= <-]. destruct C as [C1 C2 C3 C4 C5 C6 C7].
      assert (X : exits (set_nth i (Exit E) (go s)) = S (exits (go s))) by now rewrite (exits_set _ _ _ _ Hc).
      assert (EL : exits (go s) < length (go s)).
      { destruct (Nat.lt_ge_cases (exits (go s)) (length (go s))) as [|Q]; auto.
        assert (B := filter_length_le is_exit (go s)). unfold exits in Q at 1.
        assert (Y := exits_all (go s) ltac:(unfold exits; lia) _ _ Hc). discriminate. }
      constructor; cbn [s_go s_out s_wg s_main s_syntax]; try rewrite set_nth_length; auto.
      * rewrite X. lia.
      * destruct (main s); auto; lia.
      * intros j cj oj. rewrite nth_error_set_nth. destruct (Nat.eqb_spec i j) as [<-|Ne]; auto.
        destruct (Nat.ltb i (length (go s))); [|discriminate]. intros [= <-]. rewrite Ho. intros [= <-]. now exists f.
  - unfold main_step. destruct C as [C1 C2 C3 C4 C5 C6 C7].
    destruct (main s) as [|i| | |]; try contradiction; try discriminate.
    + subst i. destruct (Nat.ltb (length (go s)) n) eqn:L; intros [= <-].
      * apply Nat.ltb_lt in L. constructor; cbn [s_go s_out s_wg s_main s_syntax]; try rewrite app_length; cbn [length]; auto; try lia.
        -- now rewrite exits_app.
        -- intros i c o Hc Ho. destruct (Nat.lt_ge_cases i (length (go s))) as [Hi|Hi].
           ++ rewrite nth_error_app1 in Hc by lia. now apply C6.
           ++ rewrite nth_error_app2 in Hc by lia. destruct (i - length (go s)) as [|k] eqn:K.
              ** cbn in Hc. injection Hc as <-. assert (i = length (go s)) by lia. subst i.
                 destruct (nth_error files (length (go s))) as [f|] eqn:Hf; [|apply nth_error_None in Hf; lia].
                 exists f. split; auto. now apply (C7 (length (go s))).
              ** destruct k; discriminate.
        -- intros i o Hi. apply C7. lia.
      * apply Nat.ltb_ge in L. constructor; cbn [s_go s_out s_wg s_main s_syntax]; auto; lia.
    + destruct (s_wg F E s) eqn:W; [|discriminate]. intros [= <-].
      constructor; cbn [s_go s_out s_wg s_main s_syntax]; auto.
    + intros [= <-]. destruct C4 as [C4 C4'].
      constructor; cbn [s_go s_out s_wg s_main s_syntax]; auto.
      destruct (all_files F (out s)); auto.
Qed.

Lemma ctl_begin h e s' : exec None (call F E h e None) = Some s' ->
  ctl s' /\ s_heap F E s' = h /\ s_errors F E s' = e /\ go s' = [].
Proof.
  cbn. intros [= <-]. split; [|easy]. constructor; cbn [s_go s_out s_wg s_main s_syntax length]; auto; try lia.
  - apply repeat_length.
  - intros [|i] c o; discriminate.
  - intros i o _ H. apply nth_error_In, repeat_spec in H. exact H.
Qed.

(** A call first makes that step. *)
Lemma call_first sched h e s' : runs sched (call F E h e None) = Some s' ->
  (sched = [] /\ s' = call F E h e None) \/
  exists sched' s1, sched = None :: sched' /\ exec None (call F E h e None) = Some s1 /\ runs sched' s1 = Some s'.
Proof.
  destruct sched as [|w sched]; cbn [SyntaxModel.runs]. intros [= <-]; now left.
  destruct w as [i|].
  - cbn [SyntaxModel.exec]. unfold go_step. cbn [s_go call]. now destruct (nth_error [] i) eqn:X; [destruct i|].
  - destruct (exec None (call F E h e None)) as [s1|] eqn:X; [|discriminate]. intros H. right. now exists sched, s1.
Qed.

Lemma ctl_runs sched : forall s s', ctl s -> runs sched s = Some s' -> ctl s'.
Proof.
  induction sched as [|w sched IH]; intros s s' C; cbn [SyntaxModel.runs]. now intros [= <-].
  destruct (exec w s) as [s1|] eqn:X; [|discriminate]. apply IH. now apply (ctl_step w s).
Qed.

Lemma all_files_spec (l : list (option F)) r : all_files F l = Some r <-> l = map Some r.
Proof.
  revert r. induction l as [|[x|] l IH]; intros r; cbn.
  - split; [now intros [= <-]|]. destruct r; [auto|discriminate].
  - destruct (all_files F l) as [r'|]; split.
    + intros [= <-]. cbn. f_equal. now apply IH.
    + destruct r as [|y r]; [discriminate|]. intros [= <- H]. do 2 f_equal. apply IH in H. congruence.
    + discriminate.
    + destruct r as [|y r]; [discriminate|]. intros [= <- H]. apply IH in H. discriminate.
  - split; [discriminate|]. destruct r; discriminate.
Qed.

(** The end: out is what the files are. *)
Lemma out_end s : ctl s -> returned s ->
  out s = map (fun f => match parse f with inl t => Some t | inr _ => None end) files.
Proof.
  intros C R. unfold returned in R. destruct C as [C1 C2 C3 C4 C5 C6 C7]. rewrite R in C4. destruct C4 as [C4 C4'].
  apply nth_ext with (d := None) (d' := None). now rewrite map_length.
  intros i Hi. rewrite C2 in Hi.
  destruct (nth_error (go s) i) as [c|] eqn:Hc; [|apply nth_error_None in Hc; lia].
  destruct (nth_error (out s) i) as [o|] eqn:Ho; [|apply nth_error_None in Ho; lia].
  assert (X := exits_all (go s) ltac:(lia) i c Hc).
  destruct (C6 i c o Hc Ho) as (f & Hf & P). destruct c; try discriminate.
  rewrite (nth_error_nth _ _ _ Ho). symmetry.
  apply nth_error_nth. rewrite (map_nth_error _ _ _ Hf). destruct (parse f); congruence.
Qed.

(** ** It ends *)

Definition gcost (i : nat) (c : gpc) : nat :=
  match c with
  | Parse _ => 3 + 3 * length (rep i)
  | Add _ es => 2 + 3 * length es
  | Append _ _ _ es => 4 + 3 * length es
  | Store _ _ es => 3 + 3 * length es
  | Done _ => 1
  | Exit _ => 0
  end.
Definition icost (g : list gpc) (i : nat) : nat :=
  match nth_error g i with Some c => gcost i c | None => 4 + 3 * length (rep i) end.
Definition mcost (m : mpc) : nat := match m with Begin => 4 | Spawn _ => 3 | Wait => 2 | Check => 1 | Returned => 0 end.
Definition cost (s : state) : nat := mcost (main s) + sumf (icost (go s)) n.

Lemma cost_goto s i c c' h e o m : nth_error (go s) i = Some c -> i < n -> gcost i c' < gcost i c ->
  cost (mkState F E h e o m (s_syntax F E s) (set_nth i c' (go s)) (main s)) < cost s.
Proof.
  intros Hc Hi L. unfold cost. cbn [s_main s_go]. apply Nat.add_lt_mono_l. apply sumf_less with i; auto.
  - unfold icost. rewrite nth_error_set_nth, Nat.eqb_refl, Hc.
    assert (X : i < length (go s)) by (apply nth_error_Some; congruence). apply Nat.ltb_lt in X. now rewrite X.
  - intros j Hj Ne. unfold icost. rewrite nth_error_set_nth. destruct (Nat.eqb_spec i j); [congruence|easy].
Qed.

Lemma cost_step w s s' : ctl s -> exec w s = Some s' -> cost s' < cost s.
Proof.
  intros C. destruct w as [i|]; cbn [SyntaxModel.exec].
  - unfold go_step. destruct (nth_error (go s) i) as [c|] eqn:Hc; [|discriminate].
    assert (Hi : i < n) by (assert (i < length (go s)) by (apply nth_error_Some; congruence); assert (Z := ctl_go s C); lia).
    destruct (nth_error files i) as [f|] eqn:Hf; [|apply nth_error_None in Hf; lia].
    destruct c as [|[|e es]|l e es|l es| |]; try discriminate.
    + destruct (parse f) as [t|es] eqn:Pf; intros [= <-]; apply cost_goto with (Parse E); auto; cbn. lia.
      unfold reported. rewrite Hf, Pf. lia.
    + intros [= <-]. apply cost_goto with (Add E []); auto.
    + intros [= <-]. apply cost_goto with (Add E (e :: es)); auto; cbn; lia.
    + destruct (append E grow (s_heap F E s) l e) as [h' l']. intros [= <-]. apply cost_goto with (Append E l e es); auto; cbn; lia.
    + intros [= <-]. apply cost_goto with (Store E l es); auto; cbn; lia.
    + intros [= <-]. apply cost_goto with (Done E); auto.
  - unfold main_step. assert (M := ctl_main s C). destruct (main s) as [|i| | |] eqn:Ms; try contradiction; try discriminate.
    + subst i. destruct (Nat.ltb (length (go s)) n) eqn:L; intros [= <-]; unfold cost; cbn [s_main s_go mcost]; rewrite Ms; cbn [mcost].
      * apply Nat.add_lt_mono_l. apply Nat.ltb_lt in L. apply sumf_less with (length (go s)); auto; unfold icost.
        -- rewrite nth_error_app2, Nat.sub_diag by lia. cbn [nth_error]. assert (X : nth_error (go s) (length (go s)) = None) by (apply nth_error_None; lia).
           rewrite X. cbn. lia.
        -- intros j _ Hj. destruct (Nat.lt_ge_cases j (length (go s))). now rewrite nth_error_app1.
           assert (X : nth_error (go s) j = None) by (apply nth_error_None; lia). rewrite X.
           assert (Y : nth_error (go s ++ [Parse E]) j = None) by (apply nth_error_None; rewrite app_length; cbn; lia). now rewrite Y.
      * lia.
    + destruct (s_wg F E s); [|discriminate]. intros [= <-]. unfold cost. cbn [s_main s_go mcost]. rewrite Ms. cbn. lia.
    + intros [= <-]. unfold cost. cbn [s_main s_go mcost]. rewrite Ms. cbn. lia.
Qed.

Lemma cost_runs sched : forall s s', ctl s -> runs sched s = Some s' -> length sched + cost s' <= cost s.
Proof.
  induction sched as [|w sched IH]; intros s s' C; cbn [SyntaxModel.runs length]. intros [= <-]; lia.
  destruct (exec w s) as [s1|] eqn:X; [|discriminate]. intros H.
  assert (Y := cost_step w s s1 C X). assert (Z := IH s1 s' (ctl_step w s s1 C X) H). lia.
Qed.

Lemma progress s : ctl s -> ~ returned s -> exists w s', exec w s = Some s'.
Proof.
  intros C R. unfold returned in R. assert (M := ctl_main s C). destruct (main s) as [|i| | |] eqn:Ms; try contradiction.
  - exists None. cbn. unfold main_step. rewrite Ms. destruct (Nat.ltb i n); eauto.
  - destruct (s_wg F E s) as [|k] eqn:W.
    + exists None. cbn. unfold main_step. rewrite Ms, W. eauto.
    + assert (X := ctl_wg s C). rewrite W in X. destruct (exits_some (go s) ltac:(lia)) as (i & c & Hc & B).
      assert (Hi : i < n) by (rewrite <- M; apply nth_error_Some; congruence).
      destruct (nth_error files i) as [f|] eqn:Hf; [|apply nth_error_None in Hf; lia].
      exists (Some i). cbn. unfold go_step. rewrite Hc, Hf. destruct c as [|[|e es]|l e es|l es| |]; try discriminate; eauto.
      * destruct (parse f); eauto.
      * destruct (append E grow (s_heap F E s) l e). eauto.
  - exists None. cbn. unfold main_step. rewrite Ms. eauto.
Qed.
End Run.

(** ** The entries *)

Section Entries.
Variables Name F E : Type.
Variable parse : Name -> F + list E.
Variable grow : nat -> nat.
Variable files : list Name.
(** What p.Errors holds at the start. *)
Variable old : list E.

Notation n := (length files).
Notation n0 := (length old).
Notation rep := (reported parse files).
Notation state := (state F E).
Notation gpc := (gpc E).
Notation exec := (exec Name F E parse grow files).
Notation runs := (runs Name F E parse grow files).
Notation ctl := (ctl Name F E parse files).
Notation go := (s_go F E).
Notation hp := (s_heap F E).
Notation errs := (s_errors F E).

(** How many entries a goroutine has written to an array, and how many of them it has stored. *)
Definition written (i : nat) (c : gpc) : nat :=
  match c with
  | Parse _ => 0
  | Add _ es | Store _ _ es => length (rep i) - length es
  | Append _ _ _ es => length (rep i) - S (length es)
  | Done _ | Exit _ => length (rep i)
  end.
Definition stored (i : nat) (c : gpc) : nat :=
  match c with
  | Store _ _ es => length (rep i) - S (length es)
  | c => written i c
  end.

(** The slices that goroutines hold. *)
Definition held (c : gpc) (l : slice) : Prop := match c with Append _ l' _ _ | Store _ l' _ => l = l' | _ => False end.

Definition tags := nat -> nat -> option (nat * nat).
Definition vs (h : heap E) (T : tags) (l : slice) : Prop :=
  sl_array l < length h /\ n0 <= sl_len l <= cap E h (sl_array l) /\
  (forall k, k < n0 -> slot E h (sl_array l) k = nth_error old k) /\
  (forall k, n0 <= k -> k < sl_len l ->
     exists i j e, T (sl_array l) k = Some (i, j) /\ slot E h (sl_array l) k = Some e /\ nth_error (rep i) j = Some e).

Record dat (T : tags) (s : state) : Prop := mkDat {
  d_errs : vs (hp s) T (errs s);
  d_held : forall i c l, nth_error (go s) i = Some c -> held c l -> vs (hp s) T l;
  d_one : forall a k a' k' t, T a k = Some t -> T a' k' = Some t -> k = k';
  d_dom : forall a k i j, T a k = Some (i, j) ->
            a < length (hp s) /\ exists c, nth_error (go s) i = Some c /\ j < written i c;
  d_some : forall i c, nth_error (go s) i = Some c -> 0 < stored i c -> n0 < sl_len (errs s);
  d_store : forall i l es, nth_error (go s) i = Some (Store E l es) -> n0 < sl_len l }.

(** A goroutine moves on without touching p.Errors. *)
Lemma dat_goto T s i c c' o wg :
  dat T s -> nth_error (go s) i = Some c ->
  written i c <= written i c' -> stored i c' = stored i c ->
  (forall l, held c' l -> held c l \/ l = errs s) -> (forall l es, c' <> Store E l es) ->
  dat T (mkState F E (hp s) (errs s) o wg (s_syntax F E s) (set_nth i c' (go s)) (s_main F E s)).
Proof.
  intros [D1 D2 D3 D4 D5 D6] Hc Hw Hs Hh Hn. constructor; cbn [s_go s_heap s_errors]; auto.
  - intros j cj l. rewrite nth_error_set_nth. destruct (Nat.eqb_spec i j) as [<-|]; [|apply D2].
    destruct (Nat.ltb i (length (go s))); [|discriminate]. intros [= <-] H. destruct (Hh l H) as [X| ->]; auto. now apply (D2 i c).
  - intros a k x y H. destruct (D4 a k x y H) as (A & cx & B & C). split; auto.
    rewrite nth_error_set_nth. destruct (Nat.eqb_spec i x) as [<-|]; [|now exists cx].
    assert (X : i < length (go s)) by (apply nth_error_Some; congruence). apply Nat.ltb_lt in X. rewrite X.
    exists c'. split; auto. rewrite Hc in B. injection B as <-. lia.
  - intros j cj. rewrite nth_error_set_nth. destruct (Nat.eqb_spec i j) as [<-|]; [|apply D5].
    destruct (Nat.ltb i (length (go s))); [|discriminate]. intros [= <-] H. apply (D5 i c); auto. lia.
  - intros j l es. rewrite nth_error_set_nth. destruct (Nat.eqb_spec i j) as [<-|]; [|apply D6].
    destruct (Nat.ltb i (length (go s))); [|discriminate]. intros [= ->]. now destruct (Hn l es).
Qed.

Lemma suffix_len (es l : list E) : suffix E es l -> length es <= length l.
Proof. intros (pre & ->). rewrite app_length. lia. Qed.

Lemma suffix_nth e (es l : list E) : suffix E (e :: es) l -> nth_error l (length l - S (length es)) = Some e.
Proof.
  intros (pre & ->). rewrite app_length. cbn [length].
  replace (length pre + S (length es) - S (length es)) with (length pre) by lia.
  now rewrite nth_error_app2, Nat.sub_diag by lia.
Qed.

Lemma rep_of i f es : nth_error files i = Some f -> parse f = inr es -> rep i = es.
Proof. unfold reported. now intros -> ->. Qed.

Lemma rep_ok i f t : nth_error files i = Some f -> parse f = inl t -> rep i = [].
Proof. unfold reported. now intros -> ->. Qed.

Lemma dat_step w s s' T : ctl s -> dat T s -> exec w s = Some s' -> exists T', dat T' s'.
Proof.
  intros C D. destruct w as [i|]; cbn [SyntaxModel.exec].
  - unfold go_step. destruct (nth_error (go s) i) as [c|] eqn:Hc; [|discriminate].
    assert (Hi : i < length (go s)) by (apply nth_error_Some; congruence).
    assert (Ho : exists o, nth_error (s_out F E s) i = Some o).
    { destruct (nth_error (s_out F E s) i) eqn:X; eauto. apply nth_error_None in X.
      rewrite (ctl_out _ _ _ _ _ s C) in X. assert (Z := ctl_go _ _ _ _ _ s C). lia. }
    destruct Ho as [o Ho]. assert (P := ctl_pc _ _ _ _ _ s C i c o Hc Ho). destruct P as (f & Hf & P). rewrite Hf.
    assert (G := dat_goto T s i c).
    destruct c as [|[|e es]|l e es|l es| |]; try discriminate.
    + destruct (parse f) as [t|es] eqn:Pf; intros [= <-]; exists T; apply G; auto; try (cbn; lia); try easy.
      * cbn. now rewrite (rep_ok i f t).
      * cbn. rewrite (rep_of i f es) by auto. lia.
    + intros [= <-]. exists T. apply G; auto; try easy; cbn; try lia.
    + intros [= <-]. exists T. destruct P as (_ & es0 & Pf & Su).
      assert (R := rep_of i f es0 Hf Pf). assert (L := suffix_len _ _ Su). cbn in L.
      apply G; auto; try easy; cbn; rewrite R; lia.
    + destruct P as (_ & es0 & Pf & Su).
      assert (R := rep_of i f es0 Hf Pf). assert (L := suffix_len _ _ Su). cbn in L.
      destruct (append E grow (hp s) l e) as [h' l'] eqn:App. intros [= <-].
      destruct D as [D1 D2 D3 D4 D5 D6].
      assert (Vl : vs (hp s) T l) by (apply (D2 i _ l Hc); reflexivity).
      destruct Vl as (V1 & (V2a & V2b) & V3 & V4).
      destruct (append_facts E grow (hp s) l e h' l' App V1 V2b) as (A1 & A2 & A3 & A4 & A5 & A6 & A7 & A8 & A9 & _).
      set (w := length (rep i) - S (length es)).
      assert (Rw : nth_error (rep i) w = Some e) by (unfold w; rewrite R; now apply suffix_nth).
      assert (Tw : forall a k, T a k <> Some (i, w)).
      { intros a k H. destruct (D4 a k i w H) as (_ & c & Hc' & B). rewrite Hc in Hc'. injection Hc' as <-. cbn in B. fold w in B. lia. }
      set (T' := fun a k => if Nat.eqb a (sl_array l') && Nat.eqb k (sl_len l) then Some (i, w)
                            else if Nat.eqb a (length (hp s)) then (if Nat.ltb k (sl_len l) && Nat.eqb a (sl_array l') then T (sl_array l) k else None)
                            else T a k).
      assert (Vx : forall x, vs (hp s) T x -> vs h' T' x).
      { intros x (X1 & X2 & X3 & X4). split; [lia|]. split. rewrite A6 by auto. exact X2. split.
        - intros k Hk. rewrite A9; auto. right. lia.
        - intros k Hk Hk'. unfold T'. destruct (Nat.eqb_spec (sl_array x) (sl_array l')) as [Q|Q]; cbn [andb].
          + destruct (Nat.eqb_spec k (sl_len l)) as [->|Q'].
            * exists i, w, e. rewrite Q. auto.
            * destruct (Nat.eqb_spec (sl_array x) (length (hp s))); [lia|]. rewrite A9 by auto. now apply X4.
          + destruct (Nat.eqb_spec (sl_array x) (length (hp s))); [lia|]. rewrite A9 by auto. now apply X4. }
      assert (Vn : vs h' T' l').
      { split; auto. split; [lia|]. split.
        - intros k Hk. rewrite A8 by lia. now apply V3.
        - intros k Hk Hk'. unfold T'. rewrite Nat.eqb_refl. cbn [andb]. destruct (Nat.eqb_spec k (sl_len l)) as [->|Q].
          + exists i, w, e. auto.
          + rewrite A8 by lia. destruct A5 as [[A5 _]|[A5 _]].
            * destruct (Nat.eqb_spec (sl_array l') (length (hp s))); [lia|]. rewrite A5. apply V4; lia.
            * rewrite A5, Nat.eqb_refl. assert (Y : k < sl_len l) by lia. apply Nat.ltb_lt in Y. rewrite Y. apply V4; lia. }
      assert (T'_inv : forall a k t, T' a k = Some t -> a < length h' /\ (t = (i, w) /\ k = sl_len l \/ exists a', T a' k = Some t)).
      { intros a k t. unfold T'. destruct (Nat.eqb_spec a (sl_array l')) as [Q|Q]; destruct (Nat.eqb_spec k (sl_len l)) as [Q'|Q']; cbn [andb].
        - intros [= <-]. subst a. auto.
        - destruct (Nat.eqb_spec a (length (hp s))).
          + destruct (Nat.ltb k (sl_len l)); [|discriminate]. cbn [andb]. intros H. split; [subst a; auto|eauto].
          + intros H. split; [subst a; auto|eauto].
        - destruct (Nat.eqb_spec a (length (hp s))) as [Qa|Qa].
          + now destruct (Nat.ltb k (sl_len l)).
          + intros H. split; eauto. destruct t as [x y]. destruct (D4 a k x y H). lia.
        - destruct (Nat.eqb_spec a (length (hp s))) as [Qa|Qa].
          + now destruct (Nat.ltb k (sl_len l)).
          + intros H. split; eauto. destruct t as [x y]. destruct (D4 a k x y H). lia. }
      exists T'. constructor; cbn [s_go s_heap s_errors]; auto.
      * intros j cj x. rewrite nth_error_set_nth. destruct (Nat.eqb_spec i j) as [<-|].
        -- destruct (Nat.ltb i (length (go s))); [|discriminate]. intros [= <-]. cbn. now intros ->.
        -- intros H K. apply Vx. now apply (D2 j cj).
      * intros a k a' k' t H H'. destruct (T'_inv _ _ _ H) as [_ [[-> ->]|[b B]]]; destruct (T'_inv _ _ _ H') as [_ [[E1 ->]|[b' B']]]; auto.
        -- now destruct (Tw b' k').
        -- subst t. now destruct (Tw b k).
        -- now apply (D3 b k b' k' t).
      * intros a k x y H. destruct (T'_inv _ _ _ H) as [Ha [[[= -> ->] ->]|[b B]]]; split; auto.
        -- exists (Store E l' es). rewrite nth_error_set_nth, Nat.eqb_refl. assert (Hi' := Hi). apply Nat.ltb_lt in Hi'. rewrite Hi'. split; auto.
           cbn. unfold w. rewrite R. lia.
        -- destruct (D4 b k x y B) as (_ & cx & B1 & B2). rewrite nth_error_set_nth. destruct (Nat.eqb_spec i x) as [<-|]; [|now exists cx].
           assert (Hi' := Hi). apply Nat.ltb_lt in Hi'. rewrite Hi'. exists (Store E l' es). split; auto.
           rewrite Hc in B1. injection B1 as <-. cbn in *. lia.
      * intros j cj. rewrite nth_error_set_nth. destruct (Nat.eqb_spec i j) as [<-|]; [|apply D5].
        destruct (Nat.ltb i (length (go s))); [|discriminate]. intros [= <-] H. now apply (D5 i _ Hc).
      * intros j x es'. rewrite nth_error_set_nth. destruct (Nat.eqb_spec i j) as [<-|]; [|apply D6].
        destruct (Nat.ltb i (length (go s))); [|discriminate]. intros [= <- <-]. lia.
    + intros [= <-]. destruct D as [D1 D2 D3 D4 D5 D6]. destruct P as (_ & es0 & e & Pf & Su).
      assert (R := rep_of i f es0 Hf Pf). assert (L := suffix_len _ _ Su). cbn in L.
      assert (Hi' := Hi). apply Nat.ltb_lt in Hi'.
      exists T. constructor; cbn [s_go s_heap s_errors]; auto.
      * apply (D2 i _ l Hc). reflexivity.
      * intros j cj x. rewrite nth_error_set_nth. destruct (Nat.eqb_spec i j) as [<-|]; [|apply D2].
        rewrite Hi'. now intros [= <-].
      * intros a k x y H. destruct (D4 a k x y H) as (A & cx & B1 & B2). split; auto.
        rewrite nth_error_set_nth. destruct (Nat.eqb_spec i x) as [<-|]; [|now exists cx].
        rewrite Hi'. exists (Add E es). split; auto. rewrite Hc in B1. now injection B1 as <-.
      * intros _ _ _ _. now apply (D6 i l es).
      * intros j x es'. rewrite nth_error_set_nth. destruct (Nat.eqb_spec i j) as [<-|]; [|apply D6]. now rewrite Hi'.
    + intros [= <-]. exists T. apply G; auto; easy.
  - unfold main_step. destruct D as [D1 D2 D3 D4 D5 D6]. assert (M := ctl_main _ _ _ _ _ s C).
    destruct (s_main F E s) as [|i| | |]; try contradiction; try discriminate.
    + destruct (Nat.ltb i n); intros [= <-]; exists T; constructor; cbn [s_go s_heap s_errors]; auto.
      * intros j cj l. destruct (Nat.lt_ge_cases j (length (go s))) as [Hj|Hj].
        -- rewrite nth_error_app1 by lia. apply D2.
        -- rewrite nth_error_app2 by lia. destruct (j - length (go s)) as [|[|]]; cbn; try discriminate. now intros [= <-].
      * intros a k x y H. destruct (D4 a k x y H) as (A & cx & B1 & B2). split; auto. exists cx. split; auto.
        rewrite nth_error_app1; auto. apply nth_error_Some. congruence.
      * intros j cj. destruct (Nat.lt_ge_cases j (length (go s))) as [Hj|Hj].
        -- rewrite nth_error_app1 by lia. apply D5.
        -- rewrite nth_error_app2 by lia. destruct (j - length (go s)) as [|[|]]; cbn; try discriminate. intros [= <-]. cbn. lia.
      * intros j l es. destruct (Nat.lt_ge_cases j (length (go s))) as [Hj|Hj].
        -- rewrite nth_error_app1 by lia. apply D6.
        -- rewrite nth_error_app2 by lia. destruct (j - length (go s)) as [|[|]]; cbn; discriminate.
    + destruct (s_wg F E s); [|discriminate]. intros [= <-]. exists T; constructor; cbn [s_go s_heap s_errors]; auto.
    + intros [= <-]. exists T; constructor; cbn [s_go s_heap s_errors]; auto.
Qed.

Lemma vs_start h e T : holds h e old -> vs h T e.
Proof.
  rewrite holds_slot. intros (A & B & C & D). split; auto. split; [lia|]. split; auto. intros k. lia.
Qed.

Lemma dat_start h e s' : holds h e old -> exec None (call F E h e None) = Some s' -> dat (fun _ _ => None) s'.
Proof.
  intros H. cbn. intros [= <-]. constructor; cbn [s_go s_heap s_errors]; try discriminate.
  - now apply vs_start.
  - intros [|i] c l; discriminate.
  - intros [|i] c; discriminate.
  - intros [|i] c; discriminate.
Qed.

Lemma dat_runs sched : forall T s s', ctl s -> dat T s -> runs sched s = Some s' -> exists T', dat T' s'.
Proof.
  induction sched as [|w sched IH]; intros T s s' C D; cbn [SyntaxModel.runs]. intros [= <-]; now exists T.
  destruct (exec w s) as [s1|] eqn:X; [|discriminate]. destruct (dat_step w s s1 T C D X) as [T1 D1].
  apply IH with T1; auto. now apply (ctl_step Name F E parse grow files w s).
Qed.

(** The tagged part of a valid slice as lists. *)
Lemma tagged_lists h (T : tags) a m :
  (forall k, n0 <= k -> k < n0 + m ->
     exists i j e, T a k = Some (i, j) /\ slot E h a k = Some e /\ nth_error (rep i) j = Some e) ->
  exists tg new, length tg = m /\ length new = m /\
    Forall2 (fun t e => nth_error (rep (fst t)) (snd t) = Some e) tg new /\
    (forall k, k < m -> T a (n0 + k) = nth_error tg k) /\
    (forall k, k < m -> slot E h a (n0 + k) = nth_error new k).
Proof.
  induction m as [|m IH]; intros H.
  - exists [], []. repeat split; auto; lia.
  - destruct IH as (tg & new & A & B & C & D & G); [intros; apply H; lia|].
    destruct (H (n0 + m)) as (i & j & e & X & Y & Z); try lia.
    exists (tg ++ [(i, j)]), (new ++ [e]). rewrite !app_length. cbn [length].
    split; [lia|]. split; [lia|]. split; [|split].
    + apply Forall2_app; auto.
    + intros k Hk. destruct (Nat.eq_dec k m) as [->|].
      * rewrite nth_error_app2 by lia. now rewrite A, Nat.sub_diag.
      * rewrite nth_error_app1 by lia. apply D. lia.
    + intros k Hk. destruct (Nat.eq_dec k m) as [->|].
      * rewrite nth_error_app2 by lia. now rewrite B, Nat.sub_diag.
      * rewrite nth_error_app1 by lia. apply G. lia.
Qed.

Lemma dat_end T s : dat T s -> exists tg new,
  holds (hp s) (errs s) (old ++ new) /\ NoDup tg /\
  Forall2 (fun t e => nth_error (rep (fst t)) (snd t) = Some e) tg new /\
  length new = sl_len (errs s) - n0.
Proof.
  intros [D1 _ D3 _ _ _]. destruct D1 as (V1 & (V2 & V2') & V3 & V4).
  destruct (tagged_lists (hp s) T (sl_array (errs s)) (sl_len (errs s) - n0)) as (tg & new & A & B & C & D & G).
  { intros k Hk Hk'. apply V4; lia. }
  exists tg, new. split; [|split; [|split; auto]].
  - rewrite holds_slot, app_length. split; auto. split; [lia|]. split; auto.
    intros k Hk. destruct (Nat.lt_ge_cases k n0) as [L|L].
    + rewrite nth_error_app1 by auto. now apply V3.
    + rewrite nth_error_app2 by auto. rewrite <- G by lia. f_equal. lia.
  - apply NoDup_nth_error. intros k k' Hk Heq.
    destruct (nth_error tg k) as [t|] eqn:X; [|apply nth_error_None in X; lia].
    assert (Hk' : k' < length tg) by (apply nth_error_Some; congruence).
    assert (P : n0 + k = n0 + k'); [|lia].
    apply (D3 (sl_array (errs s)) (n0 + k) (sl_array (errs s)) (n0 + k') t); rewrite D by lia; congruence.
Qed.

Lemma dat_nonempty T s i : ctl s -> dat T s -> returned s -> rep i <> [] -> n0 < sl_len (errs s).
Proof.
  intros C D R Hr. assert (W := ctl_wg _ _ _ _ _ s C). assert (M := ctl_main _ _ _ _ _ s C). unfold returned in R. rewrite R in M.
  assert (Hi : i < n).
  { unfold reported in Hr. destruct (nth_error files i) eqn:X; [|congruence]. apply nth_error_Some. congruence. }
  destruct (nth_error (go s) i) as [c|] eqn:Hc; [|apply nth_error_None in Hc; lia].
  assert (X := exits_all E (go s) ltac:(lia) i c Hc). destruct c; try discriminate.
  apply (d_some T s D i _ Hc). cbn. destruct (rep i); [congruence|cbn; lia].
Qed.

(** ** Runs in which the goroutines do not interfere *)

Notation of i l := (map snd (filter (fun p => Nat.eqb (fst p) i) l)).

Record exi (l : list (nat * E)) (s : state) : Prop := mkExi {
  x_errs : holds (hp s) (errs s) (old ++ map snd l);
  x_of : forall i c, nth_error (go s) i = Some c -> of i l = firstn (stored i c) (rep i);
  x_none : forall i, length (go s) <= i -> of i l = [];
  x_append : forall i sl e es, nth_error (go s) i = Some (Append E sl e es) -> sl = errs s;
  x_store : forall i sl es, nth_error (go s) i = Some (Store E sl es) ->
              exists e, nth_error (rep i) (length (rep i) - S (length es)) = Some e /\
                        holds (hp s) sl ((old ++ map snd l) ++ [e]) }.

Lemma exi_goto l s i c c' o wg :
  exi l s -> nth_error (go s) i = Some c -> firstn (stored i c') (rep i) = firstn (stored i c) (rep i) ->
  (forall sl e es, c' = Append E sl e es -> sl = errs s) -> (forall sl es, c' <> Store E sl es) ->
  exi l (mkState F E (hp s) (errs s) o wg (s_syntax F E s) (set_nth i c' (go s)) (s_main F E s)).
Proof.
  intros [X1 X2 X3 X4 X5] Hc Hs Ha Hn. constructor; cbn [s_go s_heap s_errors]; auto; try rewrite set_nth_length; auto.
  - intros j cj. rewrite nth_error_set_nth. destruct (Nat.eqb_spec i j) as [<-|]; [|apply X2].
    destruct (Nat.ltb i (length (go s))); [|discriminate]. intros [= <-]. rewrite Hs. now apply X2.
  - intros j sl e es. rewrite nth_error_set_nth. destruct (Nat.eqb_spec i j) as [<-|]; [|apply X4].
    destruct (Nat.ltb i (length (go s))); [|discriminate]. intros [= ->]. now apply (Ha sl e es).
  - intros j sl es. rewrite nth_error_set_nth. destruct (Nat.eqb_spec i j) as [<-|]; [|apply X5].
    destruct (Nat.ltb i (length (go s))); [|discriminate]. intros [= ->]. now destruct (Hn sl es).
Qed.

Lemma firstn_next (l : list E) k e : nth_error l k = Some e -> firstn (S k) l = firstn k l ++ [e].
Proof.
  revert k. induction l as [|x l IH]; intros [|k] H; try discriminate.
  - now injection H as ->.
  - cbn [nth_error] in H. rewrite !(firstn_cons _ x), (IH k H). reflexivity.
Qed.

Lemma exi_step w s s' l : ctl s -> exi l s -> (forall i j, adding s i -> adding s j -> i = j) ->
  exec w s = Some s' -> exists l', exi l' s'.
Proof.
  intros C X U. destruct w as [i|]; cbn [SyntaxModel.exec].
  - unfold go_step. destruct (nth_error (go s) i) as [c|] eqn:Hc; [|discriminate].
    assert (Hi : i < length (go s)) by (apply nth_error_Some; congruence).
    assert (Hi' := Hi). apply Nat.ltb_lt in Hi'.
    assert (Ho : exists o, nth_error (s_out F E s) i = Some o).
    { destruct (nth_error (s_out F E s) i) eqn:Y; eauto. apply nth_error_None in Y.
      rewrite (ctl_out _ _ _ _ _ s C) in Y. assert (Z := ctl_go _ _ _ _ _ s C). lia. }
    destruct Ho as [o Ho]. assert (P := ctl_pc _ _ _ _ _ s C i c o Hc Ho). destruct P as (f & Hf & P). rewrite Hf.
    assert (G := exi_goto l s i c).
    destruct c as [|[|e es]|sl e es|sl es| |]; try discriminate.
    + destruct (parse f) as [t|es] eqn:Pf; intros [= <-]; exists l; apply G; auto; try easy; cbn [stored written].
      * now rewrite (rep_ok i f t).
      * now rewrite (rep_of i f es), Nat.sub_diag.
    + intros [= <-]. exists l. apply G; auto; try easy. cbn [stored written length]. now rewrite Nat.sub_0_r.
    + intros [= <-]. exists l. apply G; auto; try easy. intros sl' e' es' [= <- _ _]. reflexivity.
    + destruct P as (_ & es0 & Pf & Su).
      assert (R := rep_of i f es0 Hf Pf). assert (L := suffix_len _ _ Su). cbn in L.
      destruct (append E grow (hp s) sl e) as [h' l'] eqn:App. intros [= <-].
      assert (Ui : adding s i) by (unfold adding; now rewrite Hc).
      destruct X as [X1 X2 X3 X4 X5]. assert (Es := X4 i _ _ _ Hc). subst sl.
      apply holds_slot in X1. destruct X1 as (V1 & V2 & V3 & V4).
      destruct (append_facts E grow (hp s) (errs s) e h' l' App V1 V3) as (A1 & A2 & A3 & A4 & A5 & A6 & A7 & A8 & A9 & _).
      exists l. constructor; cbn [s_go s_heap s_errors]; auto; try rewrite set_nth_length; auto.
      * apply holds_slot. split; [lia|]. split; auto. split; [rewrite A6; auto|].
        intros k Hk. rewrite A9; auto. right. lia.
      * intros j cj. rewrite nth_error_set_nth. destruct (Nat.eqb_spec i j) as [<-|]; [|apply X2].
        rewrite Hi'. intros [= <-]. rewrite (X2 i _ Hc). reflexivity.
      * intros j sl e' es'. rewrite nth_error_set_nth. destruct (Nat.eqb_spec i j) as [<-|]; [|apply X4]. now rewrite Hi'.
      * intros j sl es'. rewrite nth_error_set_nth. destruct (Nat.eqb_spec i j) as [<-|Ne].
        -- rewrite Hi'. intros [= <- <-]. exists e. split. rewrite R. now apply suffix_nth.
           apply holds_slot. rewrite app_length. cbn [length]. split; auto. split; [lia|]. split; [lia|].
           intros k Hk. destruct (Nat.eq_dec k (sl_len (errs s))) as [->|Q].
           ++ rewrite A7, V2, nth_error_app2, Nat.sub_diag by lia. reflexivity.
           ++ rewrite A8 by lia. rewrite V4 by lia. symmetry. apply nth_error_app1. lia.
        -- intros Hj. destruct Ne. apply U; auto. unfold adding. now rewrite Hj.
    + intros [= <-]. destruct P as (_ & es0 & e0 & Pf & Su).
      assert (R := rep_of i f es0 Hf Pf). assert (L := suffix_len _ _ Su). cbn in L.
      assert (Ui : adding s i) by (unfold adding; now rewrite Hc).
      destruct X as [X1 X2 X3 X4 X5]. destruct (X5 i _ _ Hc) as (e & He & H).
      exists (l ++ [(i, e)]). constructor; cbn [s_go s_heap s_errors]; auto; try rewrite set_nth_length; auto.
      * now rewrite map_app, app_assoc.
      * intros j cj. rewrite filter_app, map_app. cbn [filter fst].
        rewrite nth_error_set_nth. destruct (Nat.eqb_spec i j) as [<-|].
        -- rewrite Hi'. intros [= <-]. rewrite (X2 i _ Hc). cbn [stored written].
           replace (length (rep i) - length es) with (S (length (rep i) - S (length es))) by (rewrite R; lia).
           now rewrite (firstn_next _ _ _ He).
        -- cbn. rewrite app_nil_r. apply X2.
      * intros j Hj. rewrite filter_app, map_app. cbn [filter fst].
        destruct (Nat.eqb_spec i j); [lia|]. cbn. rewrite app_nil_r. now apply X3.
      * intros j sl' e' es'. rewrite nth_error_set_nth. destruct (Nat.eqb_spec i j) as [<-|Ne]; [now rewrite Hi'|].
        intros Hj. destruct Ne. apply U; auto. unfold adding. now rewrite Hj.
      * intros j sl' es'. rewrite nth_error_set_nth. destruct (Nat.eqb_spec i j) as [<-|Ne]; [now rewrite Hi'|].
        intros Hj. destruct Ne. apply U; auto. unfold adding. now rewrite Hj.
    + intros [= <-]. exists l. apply G; auto; easy.
  - unfold main_step. destruct X as [X1 X2 X3 X4 X5]. assert (M := ctl_main _ _ _ _ _ s C).
    destruct (s_main F E s) as [|i| | |]; try contradiction; try discriminate.
    + destruct (Nat.ltb i n); intros [= <-]; exists l; constructor; cbn [s_go s_heap s_errors]; auto.
      * intros j cj. destruct (Nat.lt_ge_cases j (length (go s))) as [Hj|Hj].
        -- rewrite nth_error_app1 by lia. apply X2.
        -- rewrite nth_error_app2 by lia. destruct (j - length (go s)) as [|[|]]; cbn; try discriminate. intros [= <-]. now rewrite X3.
      * intros j Hj. rewrite app_length in Hj. cbn in Hj. apply X3. lia.
      * intros j sl e es. destruct (Nat.lt_ge_cases j (length (go s))) as [Hj|Hj].
        -- rewrite nth_error_app1 by lia. apply X4.
        -- rewrite nth_error_app2 by lia. destruct (j - length (go s)) as [|[|]]; cbn; discriminate.
      * intros j sl es. destruct (Nat.lt_ge_cases j (length (go s))) as [Hj|Hj].
        -- rewrite nth_error_app1 by lia. apply X5.
        -- rewrite nth_error_app2 by lia. destruct (j - length (go s)) as [|[|]]; cbn; discriminate.
    + destruct (s_wg F E s); [|discriminate]. intros [= <-]. exists l; constructor; cbn [s_go s_heap s_errors]; auto.
    + intros [= <-]. exists l; constructor; cbn [s_go s_heap s_errors]; auto.
Qed.

Lemma exi_start h e s' : holds h e old -> exec None (call F E h e None) = Some s' -> exi [] s'.
Proof.
  intros H. cbn. intros [= <-]. constructor; cbn [s_go s_heap s_errors map filter]; auto.
  - now rewrite app_nil_r.
  - intros [|i] c; discriminate.
  - intros [|i] c; discriminate.
  - intros [|i] c; discriminate.
Qed.

Lemma exi_runs sched : forall l s s', ctl s -> exi l s -> exclusive parse grow files sched s -> runs sched s = Some s' ->
  exists l', exi l' s'.
Proof.
  induction sched as [|w sched IH]; intros l s s' C D X; cbn [SyntaxModel.runs]. intros [= <-]; now exists l.
  inversion X as [|w' sched' s0 s1 U Y Z V]; subst. rewrite Y. destruct (exi_step w s s1 l C D U Y) as [l1 D1].
  apply (IH l1); auto. now apply (ctl_step Name F E parse grow files w s).
Qed.

(** Only files with entries have goroutines that add. *)
Lemma adding_rep s i : ctl s -> adding s i -> rep i <> [].
Proof.
  intros C. unfold adding. destruct (nth_error (go s) i) as [c|] eqn:Hc; [|easy].
  assert (Hi : i < length (go s)) by (apply nth_error_Some; congruence).
  assert (Ho : exists o, nth_error (s_out F E s) i = Some o).
  { destruct (nth_error (s_out F E s) i) eqn:Y; eauto. apply nth_error_None in Y.
    rewrite (ctl_out _ _ _ _ _ s C) in Y. assert (Z := ctl_go _ _ _ _ _ s C). lia. }
  destruct Ho as [o Ho]. assert (P := ctl_pc _ _ _ _ _ s C i c o Hc Ho). destruct P as (f & Hf & P).
  destruct c as [| |sl e es|sl es| |]; try easy; intros _.
  - destruct P as (_ & es0 & Pf & pre & ->). rewrite (rep_of i f _ Hf Pf). now destruct pre.
  - destruct P as (_ & es0 & e & Pf & pre & ->). rewrite (rep_of i f _ Hf Pf). now destruct pre.
Qed.

Lemma one_exclusive i sched : (forall j, j <> i -> rep j = []) ->
  forall s s', ctl s -> runs sched s = Some s' -> exclusive parse grow files sched s.
Proof.
  intros One. assert (U : forall s, ctl s -> forall a b, adding s a -> adding s b -> a = b).
  { intros s C a b A B. apply (adding_rep s a C) in A. apply (adding_rep s b C) in B.
    destruct (Nat.eq_dec a i) as [->|]; [|now destruct A; apply One].
    destruct (Nat.eq_dec b i) as [->|]; [|now destruct B; apply One]. reflexivity. }
  induction sched as [|w sched IH]; intros s s' C; cbn [SyntaxModel.runs]. constructor.
  destruct (exec w s) as [s1|] eqn:X; [|discriminate]. intros H.
  assert (C1 := ctl_step Name F E parse grow files w s s1 C X).
  apply ex_step with s1; [now apply U|exact X|exact (IH s1 s' C1 H)|now apply U].
Qed.

Lemma exi_end l s : ctl s -> exi l s -> returned s -> forall i, of i l = rep i.
Proof.
  intros C X R i. assert (W := ctl_wg _ _ _ _ _ s C). assert (M := ctl_main _ _ _ _ _ s C). unfold returned in R. rewrite R in M.
  destruct (nth_error (go s) i) as [c|] eqn:Hc.
  - rewrite (x_of l s X i c Hc). assert (Y := exits_all E (go s) ltac:(lia) i c Hc). destruct c; try discriminate.
    cbn. apply firstn_all.
  - apply nth_error_None in Hc. rewrite (x_none l s X i Hc). unfold reported.
    assert (Z : nth_error files i = None) by (apply nth_error_None; lia). now rewrite Z.
Qed.

Lemma of_one (l : list (nat * E)) i : (forall j, j <> i -> of j l = []) -> of i l = map snd l.
Proof.
  intros H. f_equal. assert (A : forall p, In p l -> fst p = i).
  { intros p Hp. destruct (Nat.eq_dec (fst p) i); auto. exfalso.
    assert (Q : In (snd p) (of (fst p) l)). { apply in_map, filter_In. split; auto. apply Nat.eqb_refl. }
    rewrite H in Q; auto. }
  clear H. induction l as [|p l IH]; cbn; auto. rewrite (A p), Nat.eqb_refl by now left. f_equal. apply IH. intros q Hq. apply A. now right.
Qed.
End Entries.

(** ** Whether a run is exclusive can be computed *)

Section Compute.
Variables Name F E : Type.
Variable parse : Name -> F + list E.
Variable grow : nat -> nat.
Variable files : list Name.

Definition is_adding (c : gpc E) : bool := match c with Append _ _ _ _ | Store _ _ _ => true | _ => false end.
Definition at_most_one (s : state F E) : bool := Nat.leb (length (filter is_adding (s_go F E s))) 1.
Fixpoint is_exclusive (sched : list (option nat)) (s : state F E) : bool :=
  match sched with
  | [] => true
  | w :: r => at_most_one s &&
      match exec Name F E parse grow files w s with Some s' => at_most_one s' && is_exclusive r s' | None => false end
  end.

Lemma at_most_one_ok s : at_most_one s = true -> forall i j, adding s i -> adding s j -> i = j.
Proof.
  unfold at_most_one, adding. intros H. apply Nat.leb_le in H. revert H. generalize (s_go F E s) as l.
  assert (Z : forall l : list (gpc E), length (filter is_adding l) <= 0 -> forall i,
    match nth_error l i with Some (Append _ _ _ _) | Some (Store _ _ _) => False | _ => True end).
  { induction l as [|c l IH]; cbn; intros H [|i]; cbn; auto.
    - destruct c; auto; cbn in H; lia.
    - apply IH. destruct (is_adding c); cbn in H; lia. }
  induction l as [|c l IH]; cbn [filter]; intros H [|i] [|j]; cbn [nth_error]; auto; try easy.
  - intros A B. assert (Y : is_adding c = true) by (destruct c; auto; contradiction). rewrite Y in H. cbn in H.
    assert (X := Z l ltac:(lia) j). destruct (nth_error l j) as [[]|]; contradiction.
  - intros B A. assert (Y : is_adding c = true) by (destruct c; auto; contradiction). rewrite Y in H. cbn in H.
    assert (X := Z l ltac:(lia) i). destruct (nth_error l i) as [[]|]; contradiction.
  - intros A B. f_equal. apply IH; auto. destruct (is_adding c); cbn in H; lia.
Qed.

Lemma is_exclusive_ok sched : forall s, is_exclusive sched s = true -> exclusive parse grow files sched s.
Proof.
  induction sched as [|w sched IH]; intros s; cbn [is_exclusive]. constructor.
  rewrite andb_true_iff. intros [A B]. destruct (exec Name F E parse grow files w s) as [s'|] eqn:X; [|discriminate].
  apply andb_true_iff in B. destruct B as [B C]. apply ex_step with s'; auto; now apply at_most_one_ok.
Qed.
End Compute.
