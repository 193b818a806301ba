(** * The recursion bounds of the parser model are never reached. *)
From Coq Require Import List String Ascii Bool Arith NArith ZArith Lia.
From Verif Require Import GoLib GoLibFacts ScanModel ParseModel ParseSpec ScanProofs.
Import ListNotations.
Open Scope string_scope.
Open Scope list_scope.

Definition left_ (s : scanner) : nat := String.length (rest s).

Lemma bind_ok {A B} (r : res A) (f : A -> res B) b : bind r f = Ok b <-> exists a, r = Ok a /\ f a = Ok b.
Proof. destruct r; cbn; split; try discriminate; [eauto|intros (x & [= <-] & H); exact H|intros (x & H & _); discriminate|intros (x & H & _); discriminate]. Qed.
Lemma bind_fuel {A B} (r : res A) (f : A -> res B) : r <> NoFuel -> (forall a, r = Ok a -> f a <> NoFuel) -> bind r f <> NoFuel.
Proof. destruct r; cbn; intros H1 H2; [apply H2; reflexivity|discriminate|congruence]. Qed.
Lemma of_option_ok {A} (o : option A) a : of_option o = Ok a <-> o = Some a.
Proof. destruct o; cbn; split; congruence. Qed.
Lemma of_option_fuel {A} (o : option A) : of_option o <> NoFuel.
Proof. destruct o; discriminate. Qed.
Lemma scan_fuel s : scan' s <> NoFuel.
Proof. apply of_option_fuel. Qed.
Lemma scan_len s t s' : scan' s = Ok (t, s') -> left_ s' <= left_ s /\ (t <> TEOF -> left_ s' < left_ s).
Proof. unfold scan'. rewrite of_option_ok. intros H. apply scan_shorter in H. unfold left_. tauto. Qed.
Lemma peek_len s h s' : peek_no_space s = (h, s') -> left_ s' <= left_ s.
Proof. intros H. apply peek_no_space_shorter in H. unfold left_. tauto. Qed.
Lemma peek_some s c s' : peek_no_space s = (Some c, s') -> left_ s' <> 0 /\ exists r, rest s' = String c r.
Proof. intros H. apply peek_no_space_shorter in H as (_ & _ & _ & H). destruct (H c eq_refl) as [r E]. unfold left_. rewrite E. split; [discriminate|eauto]. Qed.
Lemma scan_some_len s c r t s' : rest s = String c r -> is_blank c = false -> scan' s = Ok (t, s') -> left_ s' < left_ s.
Proof.
  intros E B H. pose proof (scan_len _ _ _ H) as [_ L]. apply L. intros ->. unfold scan' in H. apply of_option_ok in H. unfold scan in H. rewrite E in H. cbn [span] in H. rewrite B in H. cbn [str_drop] in H.
  destruct (token_at (nums s) (String c r)) as [[t n]|] eqn:T; [|discriminate]. injection H as -> _. apply token_at_pos in T. tauto.
Qed.
Lemma peek_not_blank s c s' : peek_no_space s = (Some c, s') -> is_blank c = false.
Proof.
  unfold peek_no_space. intros [= H _]. pose proof (drop_blank_not (rest s)) as N. destruct (str_drop _ _) as [|a r]; [discriminate|]. injection H as ->. apply (bool_false _ _ (is_blank_iff c)). intros X. apply N. exists c, r. auto.
Qed.
Lemma expect_len c s s' : expect_chr c s = Ok s' -> left_ s' < left_ s.
Proof.
  unfold expect_chr. rewrite bind_ok. intros ([t s1] & H1 & H2). destruct (is_chr t c) eqn:E; [|discriminate]. injection H2 as <-. apply (scan_len _ _ _ H1). intros ->. discriminate.
Qed.
Lemma expect_fuel c s : expect_chr c s <> NoFuel.
Proof. unfold expect_chr. apply bind_fuel; [apply scan_fuel|]. intros [t s'] _. destruct (is_chr t c); discriminate. Qed.

Lemma bare_loop_ok n : forall s, left_ s < n -> bare_loop n s <> NoFuel.
Proof.
  induction n as [|n IH]; intros s L; [lia|]. cbn [bare_loop]. destruct (peek_no_space s) as [h s1] eqn:P. destruct (bare_stop h) eqn:B; [discriminate|]. apply bind_fuel; [apply scan_fuel|]. intros [t s2] H. apply IH.
  destruct h as [c|]; [|discriminate]. destruct (peek_some _ _ _ P) as [_ [r E]]. pose proof (scan_some_len _ _ _ _ _ E (peek_not_blank _ _ _ P) H). pose proof (peek_len _ _ _ P). lia.
Qed.
Lemma bare_loop_len n : forall s s', bare_loop n s = Ok s' -> left_ s' <= left_ s.
Proof.
  induction n as [|n IH]; intros s s' H; [discriminate|]. cbn [bare_loop] in H. destruct (peek_no_space s) as [h s1] eqn:P. pose proof (peek_len _ _ _ P). destruct (bare_stop h); [injection H as <-; exact H0|].
  apply bind_ok in H as ([t s2] & H1 & H2). apply IH in H2. apply scan_len in H1. lia.
Qed.
Lemma parse_string_fuel raw s : parse_string raw s <> NoFuel.
Proof.
  unfold parse_string. apply bind_fuel; [apply scan_fuel|]. intros [t s1] _.
  assert (B : (do s2 <- bare_loop (S (String.length (rest s1))) s1; Ok (slice raw (off s1) (off s2 + String.length (txt s2)), with_nums (nums s) s2)) <> NoFuel) by (apply bind_fuel; [apply bare_loop_ok; unfold left_; lia|discriminate]).
  destruct t; try exact B; (apply bind_fuel; [apply of_option_fuel|discriminate]).
Qed.
Lemma parse_string_len raw s v s' : parse_string raw s = Ok (v, s') -> left_ s' <= left_ s.
Proof.
  unfold parse_string. rewrite bind_ok. intros ([t s1] & H1 & H2). apply scan_len in H1 as [H1 _]. change (left_ (with_nums false s)) with (left_ s) in H1.
  assert (B : (do s2 <- bare_loop (S (String.length (rest s1))) s1; Ok (slice raw (off s1) (off s2 + String.length (txt s2)), with_nums (nums s) s2)) = Ok (v, s') -> left_ s' <= left_ s).
  { rewrite bind_ok. intros (s2 & H3 & [= _ <-]). apply bare_loop_len in H3. change (left_ (with_nums (nums s) s2)) with (left_ s2). lia. }
  destruct t; try exact (B H2); (apply bind_ok in H2 as (x & _ & [= _ <-]); change (left_ (with_nums (nums s) s1)) with (left_ s1); lia).
Qed.
Lemma look_fuel n : forall s, left_ s < n -> look_semicolon n s <> NoFuel.
Proof.
  induction n as [|n IH]; intros s L; [lia|]. cbn [look_semicolon]. apply bind_fuel; [apply scan_fuel|]. intros [t s'] H. apply scan_len in H as [H1 H2].
  destruct t; try discriminate; try (apply IH; assert (left_ s' < left_ s) by (apply H2; discriminate); lia).
  destruct (is_chr (TChar c) ","); [discriminate|]. destruct (is_chr (TChar c) ";"); [discriminate|]. apply IH. assert (left_ s' < left_ s) by (apply H2; discriminate). lia.
Qed.
Lemma scan_all_fuel n : forall s, left_ s < n -> scan_all n s <> NoFuel.
Proof.
  induction n as [|n IH]; intros s L; [lia|]. cbn [scan_all]. apply bind_fuel; [apply scan_fuel|]. intros [t s'] H. apply scan_len in H as [H1 H2].
  destruct t; try discriminate; apply IH; assert (left_ s' < left_ s) by (apply H2; discriminate); lia.
Qed.
Lemma scan_all_len n : forall s s', scan_all n s = Ok s' -> left_ s' <= left_ s.
Proof.
  induction n as [|n IH]; intros s s' H; [discriminate|]. cbn [scan_all] in H. apply bind_ok in H as ([t s1] & H1 & H2). apply scan_len in H1 as [H1 _].
  destruct t; try (injection H2 as <-; exact H1); apply IH in H2; lia.
Qed.

(** ** Guessing *)
Fixpoint direct_any (a : arg) : bool := match a with AAny => true | ASlice b | APtr b => direct_any b | _ => false end.
Definition numeric_guess (s1 : scanner) : res arg :=
  do (t, s2) <- scan' s1; do (t', _) <- (if is_chr t "-" then scan' s2 else Ok (t, s2)); match t' with TInt => Ok (AInt false) | TFloat => Ok ANum | _ => Ok AStr end.
Lemma numeric_fuel s1 : numeric_guess s1 <> NoFuel.
Proof.
  unfold numeric_guess. apply bind_fuel; [apply scan_fuel|]. intros [t s2] _. apply bind_fuel; [destruct (is_chr t "-"); [apply scan_fuel|discriminate]|]. intros [t' s3] _. destruct t'; discriminate.
Qed.
Lemma numeric_shape s1 a : numeric_guess s1 = Ok a -> arg_size a = 1 /\ direct_any a = false.
Proof.
  unfold numeric_guess. rewrite bind_ok. intros ([t s2] & _ & H). apply bind_ok in H as ([t' s3] & _ & H). destruct t'; injection H as <-; auto.
Qed.
Lemma guess_fuel n : forall sub, String.length sub < n -> guess n sub <> NoFuel.
Proof.
  induction n as [|n IH]; intros sub L; [lia|]. cbn [guess]. destruct (peek_no_space (new_scanner sub)) as [h s1] eqn:P. cbv zeta. fold (numeric_guess s1).
  pose proof (peek_len _ _ _ P) as L1. change (left_ (new_scanner sub)) with (String.length sub) in L1.
  destruct h as [c|]; [|apply numeric_fuel]. destruct (_ || _ || _); [discriminate|]. destruct (Ascii.eqb c "{") eqn:C.
  - apply bind_fuel; [apply scan_fuel|]. intros [t s2] H. destruct (peek_no_space s2) as [h2 s3] eqn:P2. apply bind_fuel.
    + apply IH. destruct (peek_some _ _ _ P) as [_ [r E]]. pose proof (scan_some_len _ _ _ _ _ E (peek_not_blank _ _ _ P) H). pose proof (peek_len _ _ _ P2). unfold left_ in *. lia.
    + intros a _. destruct a; try discriminate. apply bind_fuel; [apply parse_string_fuel|]. intros [v s4] _. apply bind_fuel; [apply scan_fuel|]. intros [t' s5] _. destruct (_ || _); discriminate.
  - destruct (_ || _); [|apply numeric_fuel]. apply bind_fuel; [apply scan_fuel|]. intros [t s2] _. destruct t; try discriminate. destruct (_ || _); discriminate.
Qed.
Lemma guess_shape n : forall sub a, guess n sub = Ok a -> arg_size a <= String.length sub + 2 /\ direct_any a = false.
Proof.
  induction n as [|n IH]; intros sub a H; [discriminate|]. cbn [guess] in H. destruct (peek_no_space (new_scanner sub)) as [h s1] eqn:P. cbv zeta in H. fold (numeric_guess s1) in H.
  pose proof (peek_len _ _ _ P) as L1. change (left_ (new_scanner sub)) with (String.length sub) in L1.
  assert (Num : numeric_guess s1 = Ok a -> arg_size a <= String.length sub + 2 /\ direct_any a = false) by (intros X; apply numeric_shape in X as [-> ->]; split; [lia|reflexivity]).
  destruct h as [c|]; [|exact (Num H)]. destruct (_ || _ || _); [injection H as <-; cbn; split; [lia|reflexivity]|]. destruct (Ascii.eqb c "{") eqn:C.
  - apply bind_ok in H as ([t s2] & H1 & H). destruct (peek_no_space s2) as [h2 s3] eqn:P2. apply bind_ok in H as (f & H2 & H). apply IH in H2 as [H2 D].
    destruct (peek_some _ _ _ P) as [_ [r E]]. pose proof (scan_some_len _ _ _ _ _ E (peek_not_blank _ _ _ P) H1) as L2. pose proof (peek_len _ _ _ P2). unfold left_ in *.
    assert (Sl : arg_size (ASlice f) <= String.length sub + 2 /\ direct_any (ASlice f) = false) by (cbn; split; [lia|exact D]).
    destruct f; try (injection H as <-; exact Sl). apply bind_ok in H as ([v s4] & _ & H). apply bind_ok in H as ([t' s5] & _ & H). destruct (_ || _); injection H as <-; [cbn; split; [lia|reflexivity]|exact Sl].
  - destruct (_ || _); [|exact (Num H)]. apply bind_ok in H as ([t s2] & _ & H). destruct t; try discriminate. destruct (_ || _); injection H as <-; cbn; split; try lia; reflexivity.
Qed.
Lemma guess_type_fuel sub b : guess_type sub b <> NoFuel.
Proof.
  unfold guess_type. apply bind_fuel; [apply guess_fuel; lia|]. intros a _. destruct b; [|discriminate]. apply bind_fuel; [apply look_fuel; unfold left_; cbn; lia|discriminate].
Qed.
Lemma guess_type_shape sub b a : guess_type sub b = Ok a -> arg_size a <= String.length sub + 3 /\ direct_any a = false.
Proof.
  unfold guess_type. rewrite bind_ok. intros (g & H1 & H). apply guess_shape in H1 as [H1 D]. destruct b; [|injection H as <-; split; [lia|exact D]]. apply bind_ok in H as (semi & _ & H). injection H as <-. destruct semi; cbn; split; try lia; exact D.
Qed.

(** ** Parsing *)
Definition quad (l : nat) : nat := (l + 4) * (l + 4).
Definition need (a : arg) (l : nat) : nat := 2 * arg_size a + (if direct_any a then 2 * (l + 4) else 0) + quad l.
Lemma quad_step l m : l < m -> quad l + 2 * l + 9 <= quad m.
Proof. unfold quad. intros H. assert (E : exists k, m = S (l + k)) by (exists (m - S l); lia). destruct E as [k ->]. nia. Qed.
Lemma quad_mono l m : l <= m -> quad l <= quad m.
Proof. intros H. destruct (Nat.eq_dec l m) as [->|N]; [lia|]. pose proof (quad_step l m). lia. Qed.
Lemma need_mono a l m : l <= m -> need a l <= need a m.
Proof. intros H. unfold need. pose proof (quad_mono l m H). destruct (direct_any a); lia. Qed.
Lemma need_step a l m : l < m -> S (need a l) <= need a m.
Proof. intros H. unfold need. pose proof (quad_step l m H). destruct (direct_any a); lia. Qed.

Section Term.
  Variable float_ok : string -> bool.
  Lemma eat_minus_len s b s' : eat_minus s = Ok (b, s') -> left_ s' <= left_ s.
  Proof.
    unfold eat_minus. destruct (peek s) as [c|]; [|intros [= <- <-]; lia]. destruct (Ascii.eqb c "-"); [|intros [= <- <-]; lia]. rewrite bind_ok. intros ([t s1] & H & [= <- <-]). apply scan_len in H. lia.
  Qed.
  Lemma eat_minus_fuel s : eat_minus s <> NoFuel.
  Proof. unfold eat_minus. destruct (peek s) as [c|]; [|discriminate]. destruct (Ascii.eqb c "-"); [|discriminate]. apply bind_fuel; [apply scan_fuel|]. intros [t s1] _. discriminate. Qed.

  Lemma parse_len n :
    (forall a i raw s v s', parse float_ok n a i raw s = Ok (v, s') -> left_ s' <= left_ s) /\
    (forall b raw s l s', parse_items float_ok n b raw s = Ok (l, s') -> left_ s' <= left_ s) /\
    (forall b raw s l s', parse_legacy float_ok n b raw s = Ok (l, s') -> left_ s' <= left_ s) /\
    (forall b raw s m m' s', parse_pairs float_ok n b raw s m = Ok (m', s') -> left_ s' <= left_ s).
  Proof.
    induction n as [|n (IH1 & IH2 & IH3 & IH4)]; [repeat split; discriminate|]. repeat split.
    - intros a i raw s v s' H. destruct a; cbn [parse] in H; try discriminate.
      + apply bind_ok in H as ([neg s1] & H1 & H). apply bind_ok in H as ([t s2] & H2 & H). apply eat_minus_len in H1. apply scan_len in H2. destruct t; try discriminate. apply bind_ok in H as (z & _ & [= _ <-]). lia.
      + apply bind_ok in H as ([neg s1] & H1 & H). apply bind_ok in H as ([t s2] & H2 & H). apply eat_minus_len in H1. apply scan_len in H2. destruct t; try discriminate; destruct (float_ok _); try discriminate; injection H as _ <-; lia.
      + apply bind_ok in H as ([x s1] & H1 & [= _ <-]). exact (parse_string_len _ _ _ _ H1).
      + apply bind_ok in H as ([t s1] & H1 & H). apply scan_len in H1. destruct t; try discriminate. destruct (String.eqb _ _); [injection H as _ <-; lia|]. destruct (String.eqb _ _); [injection H as _ <-; lia|discriminate].
      + apply bind_ok in H as (g & _ & H). destruct (guess_makeable g); [exact (IH1 _ _ _ _ _ _ H)|discriminate].
      + destruct (peek_no_space s) as [h s1] eqn:P. apply peek_len in P. destruct (match h with Some c => _ | None => _ end).
        * apply bind_ok in H as ([t s2] & H1 & H). apply bind_ok in H as ([l s3] & H2 & H). apply bind_ok in H as (s4 & H3 & [= _ <-]). apply scan_len in H1. apply IH2 in H2. apply expect_len in H3. lia.
        * apply bind_ok in H as ([l s2] & H1 & [= _ <-]). apply IH3 in H1. lia.
      + apply bind_ok in H as (s1 & H1 & H). apply bind_ok in H as ([m s2] & H2 & H). apply bind_ok in H as (s3 & H3 & [= _ <-]). apply expect_len in H1, H3. apply IH4 in H2. lia.
      + apply bind_ok in H as (s1 & H1 & [= _ <-]). exact (scan_all_len _ _ _ H1).
      + apply bind_ok in H as ([x s1] & H1 & [= _ <-]). exact (IH1 _ _ _ _ _ _ H1).
    - intros b raw s l s' H. cbn [parse_items] in H. destruct (peek_no_space s) as [h s1] eqn:P. apply peek_len in P. destruct (at_end h _); [injection H as _ <-; exact P|].
      apply bind_ok in H as ([v s2] & H1 & H). apply IH1 in H1. destruct (peek_no_space s2) as [h2 s3] eqn:P2. apply peek_len in P2. destruct (match h2 with Some c => _ | None => _ end); [injection H as _ <-; lia|].
      apply bind_ok in H as (s4 & H2 & H). apply bind_ok in H as ([l' s5] & H3 & [= _ <-]). apply expect_len in H2. apply IH2 in H3. lia.
    - intros b raw s l s' H. cbn [parse_legacy] in H. destruct (peek_no_space s) as [h s1] eqn:P. apply peek_len in P. destruct (at_end h _); [injection H as _ <-; exact P|].
      apply bind_ok in H as ([v s2] & H1 & H). apply IH1 in H1. destruct (peek_no_space s2) as [h2 s3] eqn:P2. apply peek_len in P2. destruct (at_end h2 _); [injection H as _ <-; lia|].
      apply bind_ok in H as ([t s4] & H2 & H). apply scan_len in H2. destruct (match h2 with Some c => _ | None => _ end); [|discriminate]. apply bind_ok in H as ([l' s5] & H3 & [= _ <-]). apply IH3 in H3. lia.
    - intros b raw s m m' s' H. cbn [parse_pairs] in H. destruct (peek_no_space s) as [h s1] eqn:P. apply peek_len in P. destruct (at_end h _); [injection H as _ <-; exact P|].
      apply bind_ok in H as ([k s2] & H1 & H). apply bind_ok in H as (s3 & H2 & H). apply bind_ok in H as ([v s4] & H3 & H). apply parse_string_len in H1. apply expect_len in H2. apply IH1 in H3.
      destruct (peek_no_space s4) as [h2 s5] eqn:P2. apply peek_len in P2. destruct (match h2 with Some c => _ | None => _ end); [injection H as _ <-; lia|]. apply bind_ok in H as (s6 & H4 & H). apply expect_len in H4. apply IH4 in H. lia.
  Qed.

  Lemma parse_fuel n :
    (forall a i raw s, need a (left_ s) <= n -> parse float_ok n a i raw s <> NoFuel) /\
    (forall b raw s, need b (left_ s) < n -> parse_items float_ok n b raw s <> NoFuel) /\
    (forall b raw s, need b (left_ s) < n -> parse_legacy float_ok n b raw s <> NoFuel) /\
    (forall b raw s m, need b (left_ s) < n -> parse_pairs float_ok n b raw s m <> NoFuel).
  Proof.
    induction n as [|n (IH1 & IH2 & IH3 & IH4)]; [repeat split; intros; try lia; unfold need, quad in *; lia|]. repeat split.
    - intros a i raw s L. destruct a; cbn [parse]; try discriminate.
      + apply bind_fuel; [apply eat_minus_fuel|]. intros [neg s1] _. apply bind_fuel; [apply scan_fuel|]. intros [t s2] _. destruct t; try discriminate. apply bind_fuel; [apply of_option_fuel|discriminate].
      + apply bind_fuel; [apply eat_minus_fuel|]. intros [neg s1] _. apply bind_fuel; [apply scan_fuel|]. intros [t s2] _. destruct t; try discriminate; destruct (float_ok _); discriminate.
      + apply bind_fuel; [apply parse_string_fuel|]. intros [x s1] _. discriminate.
      + apply bind_fuel; [apply scan_fuel|]. intros [t s1] _. destruct t; try discriminate. destruct (String.eqb _ _); [discriminate|]. destruct (String.eqb _ _); discriminate.
      + apply bind_fuel; [apply guess_type_fuel|]. intros g H. apply guess_type_shape in H as [H D]. destruct (guess_makeable g); [|discriminate]. apply IH1. unfold need, left_ in *. rewrite D. cbn [arg_size direct_any] in L. lia.
      + destruct (peek_no_space s) as [h s1] eqn:P. apply peek_len in P. assert (Nb : need (ASlice a) (left_ s) = 2 + need a (left_ s)) by (unfold need; cbn [arg_size direct_any]; lia). pose proof (need_mono a _ _ P). destruct (match h with Some c => _ | None => _ end).
        * apply bind_fuel; [apply scan_fuel|]. intros [t s2] H1. apply scan_len in H1 as [H1 _]. apply bind_fuel; [apply IH2; pose proof (need_mono a _ _ H1); lia|]. intros [l s3] _. apply bind_fuel; [apply expect_fuel|discriminate].
        * apply bind_fuel; [apply IH3; lia|]. intros [l s2] _. discriminate.
      + apply bind_fuel; [apply expect_fuel|]. intros s1 H1. apply expect_len in H1. apply bind_fuel.
        * apply IH4. unfold need in *. cbn [arg_size direct_any] in L. pose proof (quad_step _ _ H1). destruct (direct_any a); lia.
        * intros [m s2] _. apply bind_fuel; [apply expect_fuel|discriminate].
      + apply bind_fuel; [apply scan_all_fuel; unfold left_; lia|discriminate].
      + apply bind_fuel; [apply IH1; unfold need in *; cbn [arg_size direct_any] in L; lia|]. intros [x s1] _. discriminate.
    - intros b raw s L. cbn [parse_items]. destruct (peek_no_space s) as [h s1] eqn:P. apply peek_len in P. destruct (at_end h _); [discriminate|]. pose proof (need_mono b _ _ P).
      apply bind_fuel; [apply IH1; lia|]. intros [v s2] H1. apply (proj1 (parse_len n)) in H1. destruct (peek_no_space s2) as [h2 s3] eqn:P2. apply peek_len in P2. destruct (match h2 with Some c => _ | None => _ end); [discriminate|].
      apply bind_fuel; [apply expect_fuel|]. intros s4 H2. apply expect_len in H2. apply bind_fuel; [|intros [l s5] _; discriminate]. apply IH2. pose proof (need_step b (left_ s4) (left_ s)). lia.
    - intros b raw s L. cbn [parse_legacy]. destruct (peek_no_space s) as [h s1] eqn:P. apply peek_len in P. destruct (at_end h _); [discriminate|]. pose proof (need_mono b _ _ P).
      apply bind_fuel; [apply IH1; lia|]. intros [v s2] H1. apply (proj1 (parse_len n)) in H1. destruct (peek_no_space s2) as [h2 s3] eqn:P2. pose proof (peek_len _ _ _ P2). destruct (at_end h2 _) eqn:E; [discriminate|].
      apply bind_fuel; [apply scan_fuel|]. intros [t s4] H2. destruct (match h2 with Some c => _ | None => _ end); [|discriminate]. apply bind_fuel; [|intros [l s5] _; discriminate]. apply IH3.
      destruct h2 as [c|]; [|discriminate]. destruct (peek_some _ _ _ P2) as [_ [r R]]. pose proof (scan_some_len _ _ _ _ _ R (peek_not_blank _ _ _ P2) H2). pose proof (need_step b (left_ s4) (left_ s)). lia.
    - intros b raw s m L. cbn [parse_pairs]. destruct (peek_no_space s) as [h s1] eqn:P. apply peek_len in P. destruct (at_end h _); [discriminate|].
      apply bind_fuel; [apply parse_string_fuel|]. intros [k s2] H1. apply parse_string_len in H1. apply bind_fuel; [apply expect_fuel|]. intros s3 H2. apply expect_len in H2.
      assert (L3 : left_ s3 < left_ s) by lia. pose proof (need_step b _ _ L3). apply bind_fuel; [apply IH1; lia|]. intros [v s4] H3. apply (proj1 (parse_len n)) in H3. destruct (peek_no_space s4) as [h2 s5] eqn:P2. apply peek_len in P2.
      destruct (match h2 with Some c => _ | None => _ end); [discriminate|]. apply bind_fuel; [apply expect_fuel|]. intros s6 H4. apply expect_len in H4. apply IH4. pose proof (need_step b (left_ s6) (left_ s)). lia.
  Qed.
  Lemma parse_arg_fuel a raw s : parse_arg float_ok a raw s <> NoFuel.
  Proof. unfold parse_arg. apply parse_fuel. unfold need, fuel, quad, left_. cbv zeta. destruct (direct_any a); lia. Qed.
  Lemma parse_arg_len a raw s v s' : parse_arg float_ok a raw s = Ok (v, s') -> left_ s' <= left_ s.
  Proof. apply parse_len. Qed.
  Lemma named_args_fuel n d raw : forall s seen out, left_ s < n -> named_args float_ok n d raw s seen out <> NoFuel.
  Proof.
    induction n as [|n IH]; intros s seen out L; [lia|]. cbn [named_args]. apply bind_fuel; [apply scan_fuel|]. intros [t s1] H1. apply scan_len in H1 as [H1 _]. destruct t; try discriminate.
    apply bind_fuel; [apply expect_fuel|]. intros s2 H2. apply expect_len in H2. destruct (mget _ _ _) as [f|]; [|discriminate]. apply bind_fuel; [apply parse_arg_fuel|]. intros [v s3] H3. apply parse_arg_len in H3. cbv zeta.
    destruct (peek s3); [|discriminate]. apply bind_fuel; [apply expect_fuel|]. intros s4 H4. apply expect_len in H4. apply IH. lia.
  Qed.
  Lemma parse_fields_fuel d fields : parse_fields float_ok d fields <> NoFuel.
  Proof.
    unfold parse_fields. cbv zeta. apply bind_fuel.
    - destruct (_ && _); [destruct (d_fields d) as [|[k f] l]; [discriminate|]; apply bind_fuel; [apply parse_arg_fuel|]; intros [v s'] _; discriminate|]. destruct (_ && _); [|discriminate]. apply named_args_fuel. unfold left_. cbn. lia.
    - intros [[seen out] s'] _. apply bind_fuel; [apply scan_fuel|]. intros [t s2] _. destruct t; try discriminate. destruct (_ && _); discriminate.
  Qed.
End Term.
