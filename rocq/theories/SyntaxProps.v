(** * C49: the files of a package are parsed all or not at all; of the errors, some may be lost *)

From Coq Require Import List Bool Arith Lia.
Import ListNotations.
From Verif Require Import SyntaxModel SyntaxSpec SyntaxProofs.
Open Scope nat_scope.
Open Scope list_scope.

Section Claims.
Variables Name F E : Type.
Variable parse : Name -> F + list E.
Variable grow : nat -> nat.
Variable files : list Name.
Notation exec := (exec Name F E parse grow files).
Notation runs := (runs Name F E parse grow files).
Notation call := (call F E).
Notation rep := (reported parse files).

(** A run of a call with p.Syntax set: it returns, and nothing else. *)
Lemma run_set sched h e l s : runs sched (call h e (Some l)) = Some s ->
  length sched <= 1 /\ (s = call h e (Some l) \/ s = mkState F E h e [] 0 (Some l) [] Returned).
Proof.
  destruct sched as [|[i|] sched]; cbn [SyntaxModel.runs].
  - intros [= <-]. cbn. auto.
  - cbn. unfold go_step. now destruct i.
  - cbn. destruct sched as [|[i|] sched]; cbn [SyntaxModel.runs].
    + intros [= <-]. cbn. auto.
    + cbn. unfold go_step. now destruct i.
    + discriminate.
Qed.

(** A run of a call with p.Syntax not set has just begun or is under control. *)
Lemma run_unset sched h e s : runs sched (call h e None) = Some s ->
  (sched = [] /\ s = call h e None) \/
  exists sched' s1, sched = None :: sched' /\ exec None (call h e None) = Some s1 /\ runs sched' s1 = Some s /\
    ctl Name F E parse files s1 /\ ctl Name F E parse files s.
Proof.
  intros R. destruct (call_first _ _ _ _ _ _ _ _ _ _ R) as [H|(sched' & s1 & A & B & C)]; [now left|right].
  exists sched', s1. do 3 (split; auto). split.
  - now apply (ctl_begin Name F E parse grow files h e).
  - apply (ctl_runs Name F E parse grow files sched' s1); auto. now apply (ctl_begin Name F E parse grow files h e).
Qed.

(** ** It returns *)

(** No schedule goes on for ever: the longest has a step for the call, the return and the wait, four per file and three per entry. *)
Theorem syntax_bounded sched h e syn s : runs sched (call h e syn) = Some s ->
  length sched <= 4 + 4 * length files + 3 * length (flat_map rep (seq 0 (length files))).
Proof.
  intros R. destruct syn as [l|].
  - apply run_set in R. lia.
  - destruct (run_unset _ _ _ _ R) as [[-> _]|(sched' & s1 & -> & A & B & C & _)]; [cbn; lia|].
    assert (Q := cost_runs Name F E parse grow files sched' s1 s C B). cbn [length].
    cbn in A. injection A as <-. unfold cost in Q at 2. cbn [s_main s_go mcost] in Q.
    assert (S : forall k, sumf (icost Name F E parse files []) k = 4 * k + 3 * length (flat_map rep (seq 0 k))).
    { induction k as [|k IH]; [reflexivity|]. cbn [sumf]. rewrite IH, seq_S, flat_map_app, app_length. cbn [flat_map plus].
      rewrite app_nil_r. unfold icost. assert (X : nth_error (@nil (gpc E)) k = None) by now destruct k. rewrite X. lia. }
    rewrite S in Q. lia.
Qed.

(** And a schedule can go on until the call has returned, with all goroutines ended; after that nothing can be done. *)
Theorem syntax_returns sched h e syn s : runs sched (call h e syn) = Some s ->
  (~ returned s -> exists w s', exec w s = Some s') /\
  (returned s -> forall w, exec w s = None).
Proof.
  intros R. destruct syn as [l|].
  - destruct (run_set _ _ _ _ _ R) as [_ [->| ->]]; split.
    + intros _. exists None. cbn. eauto.
    + discriminate.
    + intros H. now destruct H.
    + intros _ [i|]; cbn; auto. unfold go_step. now destruct i.
  - destruct (run_unset _ _ _ _ R) as [[_ ->]|(sched' & s1 & _ & _ & _ & _ & C)]; split.
    + intros _. exists None. cbn. eauto.
    + discriminate.
    + now apply (progress Name F E parse grow files).
    + intros H [i|]; cbn.
      * assert (M := ctl_main _ _ _ _ _ s C). assert (W := ctl_wg _ _ _ _ _ s C). unfold returned in H. rewrite H in M.
        unfold go_step. destruct (nth_error (s_go F E s) i) as [c|] eqn:Hc; auto.
        assert (X := exits_all E (s_go F E s) ltac:(lia) i c Hc). now destruct c.
      * unfold main_step. unfold returned in H. now rewrite H.
Qed.

(** ** The syntax trees *)

(** All the syntax trees in the order of the files if all can be parsed; none otherwise. *)
Theorem syntax_exact sched h e s : runs sched (call h e None) = Some s -> returned s ->
  (forall l, s_syntax F E s = Some l <-> map parse files = map inl l) /\
  (s_syntax F E s = None <-> exists f es, In f files /\ parse f = inr es).
Proof.
  intros R H. destruct (run_unset _ _ _ _ R) as [[_ ->]|(sched' & s1 & _ & _ & _ & _ & C)]; [discriminate|].
  assert (X := ctl_syntax _ _ _ _ _ s C). unfold returned in H. rewrite H in X. rewrite X.
  rewrite (out_end Name F E parse files s C H). clear.
  assert (A : forall l, all_files F (map (fun f => match parse f with inl t => Some t | inr _ => None end) files) = Some l <-> map parse files = map inl l).
  { intros l. rewrite all_files_spec. revert l. induction files as [|f fs IH]; intros [|t l]; cbn; try easy.
    split.
    - intros [= A B]. apply IH in B. rewrite B. destruct (parse f); congruence.
    - intros [= A B]. apply IH in B. rewrite B, A. reflexivity. }
  split; auto. split.
  - intros N. clear A. revert N. induction files as [|f fs IH]; cbn; [discriminate|].
    destruct (parse f) as [t|es] eqn:Pf.
    + destruct (all_files F _) eqn:X; [discriminate|]. intros _. destruct (IH eq_refl) as (g & es & B & D). exists g, es. auto.
    + intros _. exists f, es. auto.
  - intros (f & es & B & D). destruct (all_files F _) as [l|] eqn:X; auto. exfalso. assert (X' := proj1 (A l) eq_refl).
    assert (Y : In (parse f) (map inl l)) by (rewrite <- X'; now apply in_map). apply in_map_iff in Y.
    destruct Y as (t & Y & _). congruence.
Qed.

(** Until then there is nothing to be seen. *)
Theorem syntax_late sched h e s : runs sched (call h e None) = Some s -> ~ returned s -> s_syntax F E s = None.
Proof.
  intros R H. destruct (run_unset _ _ _ _ R) as [[_ ->]|(sched' & s1 & _ & _ & _ & _ & C)]; [reflexivity|].
  assert (X := ctl_syntax _ _ _ _ _ s C). unfold returned in H. destruct (s_main F E s); auto. now destruct H.
Qed.

(** If they are there already nothing is done. *)
Theorem syntax_kept sched h e l s : runs sched (call h e (Some l)) = Some s ->
  s_syntax F E s = Some l /\ s_heap F E s = h /\ s_errors F E s = e /\ s_go F E s = [].
Proof. intros R. now destruct (run_set _ _ _ _ _ R) as [_ [->| ->]]. Qed.

(** ** The errors *)

(** Whatever the schedule: what was reported before stays; what is added are entries of the files, none of them twice; and
    if there are any for some file, one is added. *)
Theorem errors_sound sched h e s old : runs sched (call h e None) = Some s -> holds h e old ->
  exists tg new, holds (s_heap F E s) (s_errors F E s) (old ++ new) /\ NoDup tg /\
    Forall2 (fun t x => nth_error (rep (fst t)) (snd t) = Some x) tg new /\
    (returned s -> forall i, rep i <> [] -> new <> []).
Proof.
  intros R H. destruct (run_unset _ _ _ _ R) as [[_ ->]|(sched' & s1 & _ & A & B & C & C')].
  - exists [], []. rewrite app_nil_r. repeat split; auto; try apply H. constructor. discriminate.
  - assert (D := dat_start Name F E parse grow files old h e s1 H A).
    destruct (dat_runs Name F E parse grow files old sched' _ s1 s C D B) as [T DT].
    destruct (dat_end Name F E parse files old T s DT) as (tg & new & P & Q & V & W).
    exists tg, new. repeat split; auto; try apply P. intros Rt i Hi.
    assert (Z := dat_nonempty Name F E parse files old T s i C' DT Rt Hi). intros ->. cbn in W. lia.
Qed.

(** If no two goroutines are adding to p.Errors at the same time, all is added: what is added is a merge of the entries of
    the files. *)
Theorem exclusive_complete sched h e s old : runs sched (call h e None) = Some s -> returned s ->
  exclusive parse grow files sched (call h e None) -> holds h e old ->
  exists l : list (nat * E), holds (s_heap F E s) (s_errors F E s) (old ++ map snd l) /\
    forall i, map snd (filter (fun p => Nat.eqb (fst p) i) l) = rep i.
Proof.
  intros R Rt X H. destruct (run_unset _ _ _ _ R) as [[_ ->]|(sched' & s1 & -> & A & B & C & C')]; [discriminate|].
  inversion X as [|w' sched0 s0 s1' U Y Z V]; subst. rewrite A in Y. injection Y as <-.
  destruct (exi_runs Name F E parse grow files old sched' [] s1 s C (exi_start Name F E parse grow files old h e s1 H A) Z B) as [l L].
  exists l. split. apply (x_errs _ _ _ _ _ _ _ _ L). now apply (exi_end Name F E parse files old l s).
Qed.

(** So with one file that has errors, all is added in order, whatever the schedule. *)
Theorem one_file sched h e s old i : runs sched (call h e None) = Some s -> returned s -> holds h e old ->
  (forall j, j <> i -> rep j = []) -> holds (s_heap F E s) (s_errors F E s) (old ++ rep i).
Proof.
  intros R Rt H One. destruct (run_unset _ _ _ _ R) as [[_ ->]|(sched' & s1 & -> & A & B & C & C')]; [discriminate|].
  assert (Z := one_exclusive Name F E parse grow files i sched' One s1 s C B).
  destruct (exi_runs Name F E parse grow files old sched' [] s1 s C (exi_start Name F E parse grow files old h e s1 H A) Z B) as [l L].
  assert (W := exi_end Name F E parse files old l s C' L Rt).
  rewrite <- (W i), of_one. apply (x_errs _ _ _ _ _ _ _ _ L). intros j Hj. rewrite W. now apply One.
Qed.

(** And without errors nothing is added. *)
Theorem no_errors sched h e s old l : runs sched (call h e None) = Some s -> returned s -> holds h e old ->
  s_syntax F E s = Some l -> holds (s_heap F E s) (s_errors F E s) old.
Proof.
  intros R Rt H S. rewrite <- (app_nil_r old). apply (proj1 (syntax_exact _ _ _ _ R Rt)) in S.
  assert (N : forall i, rep i = []).
  { intros i. unfold reported. destruct (nth_error files i) as [f|] eqn:Hf; auto.
    apply (map_nth_error parse) in Hf. rewrite S in Hf. apply nth_error_In, in_map_iff in Hf. destruct Hf as (t & <- & _). reflexivity. }
  rewrite <- (N 0). apply (one_file _ _ _ _ _ _ R Rt H). auto.
Qed.

(** ** One call after the other *)

(** If all files can be parsed, calls after the first do nothing. *)
Theorem again_same k h e h' e' syn' l old : map parse files = map inl l -> holds h e old ->
  calls parse grow files (S k) h e None h' e' syn' -> syn' = Some l /\ holds h' e' old.
Proof.
  intros P H. assert (I : forall m h' e' syn', calls parse grow files m h e None h' e' syn' ->
    (m = 0 /\ syn' = None \/ syn' = Some l) /\ holds h' e' old).
  { intros m h1 e1 syn1 X. remember None as syn0 eqn:E0. induction X as [h e syn|m h e syn h1 e1 syn1 sched s X IH R Rt].
    - auto.
    - destruct IH as (D & G); auto. subst syn. destruct D as [[-> ->]| ->].
      + assert (S : s_syntax F E s = Some l) by now apply (proj1 (syntax_exact _ _ _ _ R Rt)).
        split; auto. now apply (no_errors _ _ _ _ _ _ R Rt G S).
      + destruct (syntax_kept _ _ _ _ _ R) as (A & B & C & _). rewrite A, B, C. auto. }
  intros X. destruct (I _ _ _ _ X) as [[[? _]|?] ?]; [discriminate|auto].
Qed.

(** If one cannot, every call parses all of them again, and reports the same again. *)
Theorem again_reported k h e h' e' syn' i old : (exists f es, In f files /\ parse f = inr es) ->
  (forall j, j <> i -> rep j = []) -> holds h e old -> calls parse grow files k h e None h' e' syn' ->
  syn' = None /\ holds h' e' (old ++ concat (repeat (rep i) k)).
Proof.
  intros B One H X. remember None as syn0 eqn:E0. induction X as [h e syn|k h e syn h1 e1 syn1 sched s X IH R Rt].
  - rewrite app_nil_r. auto.
  - destruct IH as (E1 & G); auto. subst syn syn1. split. now apply (proj2 (syntax_exact _ _ _ _ R Rt)).
    replace (concat (repeat (rep i) (S k))) with (concat (repeat (rep i) k) ++ rep i).
    + rewrite app_assoc. now apply (one_file _ _ _ _ _ _ R Rt G).
    + cbn [repeat]. rewrite repeat_cons, concat_app. cbn. now rewrite app_nil_r.
Qed.

(** In general each call adds something. *)
Theorem again_grows k h e h' e' syn' i old : rep i <> [] -> holds h e old ->
  calls parse grow files k h e None h' e' syn' ->
  exists new, holds h' e' (old ++ new) /\ k <= length new.
Proof.
  intros B H X. remember None as syn0 eqn:E0.
  assert (G : syn' = None /\ exists new, holds h' e' (old ++ new) /\ k <= length new); [|tauto].
  induction X as [h e syn|k h e syn h1 e1 syn1 sched s X IH R Rt].
  - split; auto. exists []. rewrite app_nil_r. auto.
  - destruct IH as (E1 & new & G & L); auto. subst syn syn1. split.
    + apply (proj2 (syntax_exact _ _ _ _ R Rt)). unfold reported in B. destruct (nth_error files i) as [f|] eqn:Hf; [|congruence].
      destruct (parse f) as [t|es] eqn:Pf; [congruence|]. exists f, es. split; auto. now apply nth_error_In in Hf.
    + destruct (errors_sound _ _ _ _ _ R G) as (tg & new' & P & _ & _ & N). exists (new ++ new'). rewrite app_assoc. split; auto.
      rewrite app_length. specialize (N Rt i B). destruct new'; [congruence|]. cbn. lia.
Qed.
End Claims.

(** ** Examples *)

(** Files 0 and 1 have one error each, 2 has two, the others none. *)
Definition xparse (f : nat) : nat + list nat := match f with 0 => inr [10] | 1 => inr [11] | 2 => inr [12; 13] | _ => inl (100 + f) end.
Notation xruns fs sched := (runs nat nat nat xparse (fun k => k) fs sched (call nat nat [[]] (mkSlice 0 0) None)).
Notation result fs sched := (match xruns fs sched with
  | Some s => Some (s_main nat nat s, s_syntax nat nat s, entries nat (s_heap nat nat s) (s_errors nat nat s)) | None => None end).

(** A schedule: spawn k goroutines. *)
Definition spawn (k : nat) : list (option nat) := repeat None (2 + k).
Definition add (i : nat) : list (option nat) := repeat (Some i) 3.

Example starts_empty : holds [[]] (mkSlice 0 0) (@nil nat).
Proof. repeat split; auto. Qed.

(** All can be parsed; the last is the first to be done. *)
Example parsed : result [3; 4; 5] (spawn 3 ++ [Some 2; Some 2; Some 0; Some 1; Some 1; Some 0; None; None])
  = Some (Returned, Some [103; 104; 105], []).
Proof. reflexivity. Qed.

(** One cannot. *)
Example one_fails : result [3; 2; 5] (spawn 3 ++ [Some 2; Some 1; Some 2] ++ add 1 ++ [Some 0] ++ add 1 ++ [Some 1; Some 1; Some 0; None; None])
  = Some (Returned, None, [Some 12; Some 13]).
Proof. reflexivity. Qed.

Example one_fails_meets : forall j, j <> 1 -> reported xparse [3; 2; 5] j = [].
Proof. intros [|[|[|j]]]; try reflexivity; [now intros H; destruct H|]. now destruct j. Qed.

(** Two cannot, one after the other. *)
Definition in_turn : list (option nat) :=
  spawn 2 ++ [Some 0; Some 1] ++ add 0 ++ add 1 ++ [Some 0; Some 1; Some 0; Some 1; None; None].
Example two_fail : result [0; 1] in_turn = Some (Returned, None, [Some 10; Some 11]).
Proof. reflexivity. Qed.

(** That schedule is exclusive. *)
Example two_fail_exclusive : exclusive xparse (fun k => k) [0; 1] in_turn (call nat nat [[]] (mkSlice 0 0) None).
Proof.
  now apply is_exclusive_ok.
Qed.

(** Two calls. *)
Definition alone : list (option nat) := spawn 1 ++ [Some 0] ++ add 0 ++ [Some 0; Some 0; None; None].
Example again_meets : exists h e, calls xparse (fun k => k) [0] 2 [[]] (mkSlice 0 0) None h e None.
Proof.
  destruct (xruns [0] alone) as [s|] eqn:R; [|vm_compute in R; discriminate].
  assert (C := c_more _ _ _ _ _ _ _ _ _ _ alone s (c_none xparse (fun k => k) [0] [[]] (mkSlice 0 0) None) R).
  vm_compute in R. injection R as <-. specialize (C eq_refl). cbn [s_heap s_errors s_syntax] in C.
  match type of C with calls _ _ _ _ _ _ _ ?h ?e ?y =>
    destruct (runs nat nat nat xparse (fun k => k) [0] alone (call nat nat h e y)) as [s|] eqn:R; [|vm_compute in R; discriminate] end.
  assert (D := c_more _ _ _ _ _ _ _ _ _ _ alone s C R).
  vm_compute in R. injection R as <-. specialize (D eq_refl). cbn [s_heap s_errors s_syntax] in D. eauto.
Qed.

(** ** What does not hold *)

(** "The errors of all files are reported": an error is lost when two goroutines read p.Errors before either writes it. *)
Theorem syntax_errors_kept_refuted : ~ (forall (parse : nat -> nat + list nat) grow files sched h e s i x,
  runs nat nat nat parse grow files sched (call nat nat h e None) = Some s -> returned s -> holds h e [] ->
  In x (reported parse files i) -> In (Some x) (entries nat (s_heap nat nat s) (s_errors nat nat s))).
Proof.
  intros H. destruct (xruns [0; 1] (spawn 2 ++ [Some 0; Some 1; Some 0; Some 1; Some 0; Some 1; Some 0; Some 1; Some 0; Some 1; Some 0; Some 1; None; None])) as [s|] eqn:R;
    [|vm_compute in R; discriminate].
  specialize (H _ _ _ _ _ _ _ 0 10 R). vm_compute in R. injection R as <-. specialize (H eq_refl starts_empty (or_introl eq_refl)).
  vm_compute in H. destruct H as [H|[]]. discriminate.
Qed.

(** "They are reported in the order of the files": it is the order in which the goroutines come to it. *)
Theorem syntax_errors_order_refuted : ~ (forall (parse : nat -> nat + list nat) grow files sched h e s,
  runs nat nat nat parse grow files sched (call nat nat h e None) = Some s -> returned s -> holds h e [] ->
  exclusive parse grow files sched (call nat nat h e None) ->
  entries nat (s_heap nat nat s) (s_errors nat nat s) = map Some (flat_map (reported parse files) (seq 0 (length files)))).
Proof.
  intros H. pose (sched := spawn 2 ++ [Some 0; Some 1] ++ add 1 ++ add 0 ++ [Some 0; Some 1; Some 0; Some 1; None; None]).
  destruct (xruns [0; 1] sched) as [s|] eqn:R; [|vm_compute in R; discriminate].
  specialize (H _ _ _ _ _ _ _ R). vm_compute in R. injection R as <-. specialize (H eq_refl starts_empty).
  assert (X : exclusive xparse (fun k => k) [0; 1] sched (call nat nat [[]] (mkSlice 0 0) None)).
  { now apply is_exclusive_ok. }
  specialize (H X). vm_compute in H. discriminate.
Qed.

(** "An error is reported once, however often NeedSyntax is called." *)
Theorem syntax_errors_once_refuted : ~ (forall (parse : nat -> nat + list nat) grow files k h e h' e' syn' l,
  calls parse grow files k h e None h' e' syn' -> holds h e [] -> holds h' e' l -> NoDup (map (fun f => parse f) files) -> NoDup l).
Proof.
  intros H. assert (X := again_meets).
  destruct X as (h & e & X).
  destruct (again_reported nat nat nat xparse (fun k => k) [0] 2 _ _ _ _ _ 0 [] ltac:(exists 0, [10]; cbn; auto) ltac:(intros [|[|j]]; cbn; try reflexivity; [now intros N; destruct N]) starts_empty X) as [_ L].
  specialize (H _ _ _ _ _ _ _ _ _ _ X starts_empty L ltac:(repeat constructor; intros [])).
  cbn in H. inversion_clear H as [|? ? N _]. apply N. now left.
Qed.

Print Assumptions syntax_bounded.
Print Assumptions syntax_returns.
Print Assumptions syntax_exact.
Print Assumptions syntax_late.
Print Assumptions syntax_kept.
Print Assumptions errors_sound.
Print Assumptions exclusive_complete.
Print Assumptions one_file.
Print Assumptions no_errors.
Print Assumptions again_same.
Print Assumptions again_reported.
Print Assumptions again_grows.
Print Assumptions syntax_errors_kept_refuted.
Print Assumptions syntax_errors_order_refuted.
Print Assumptions syntax_errors_once_refuted.
