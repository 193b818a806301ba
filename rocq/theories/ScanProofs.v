(** * Facts about the scanner model. *)
From Coq Require Import List String Ascii Bool Arith NArith ZArith Lia.
From Verif Require Import GoLib GoLibFacts ScanModel ParseModel ParseSpec.
Import ListNotations.
Open Scope string_scope.
Open Scope list_scope.

(** ** Characters *)
Lemma is_blank_iff a : is_blank a = true <-> space_char a.
Proof. unfold is_blank, space_char, codes, code. rewrite !orb_true_iff, !Nat.eqb_eq. cbn [In]. intuition lia. Qed.
Lemma between_iff lo hi a : between lo hi a = true <-> lo <= nat_of_ascii a <= hi.
Proof. unfold between, code. rewrite andb_true_iff, !Nat.leb_le. tauto. Qed.
Lemma is_digit_iff a : is_digit a = true <-> digit_char a.
Proof. unfold is_digit. rewrite between_iff. reflexivity. Qed.
Lemma is_letter_iff a : is_letter a = true <-> letter_char a.
Proof. unfold is_letter, letter_char, code. rewrite !orb_true_iff, !between_iff, Nat.eqb_eq, Nat.leb_le. cbv zeta. tauto. Qed.
Lemma is_ident_iff a : is_ident a = true <-> word_char a.
Proof. unfold is_ident, word_char. rewrite orb_true_iff, is_letter_iff, is_digit_iff. reflexivity. Qed.
Lemma bool_false (P : Prop) b : (b = true <-> P) -> (b = false <-> ~ P).
Proof. intros H. destruct b; split; try congruence; [intros N; exfalso; apply N, H; reflexivity|intros _ X; apply H in X; discriminate]. Qed.
Lemma eqb_false_ne a b : a <> b -> Ascii.eqb a b = false.
Proof. intros H. apply Ascii.eqb_neq, H. Qed.
Lemma code_ne a b : nat_of_ascii a <> nat_of_ascii b -> a <> b.
Proof. congruence. Qed.

Lemma all_nil P : all_chars P "".
Proof. intros x a y H. destruct x; discriminate. Qed.
Lemma all_cons P a s : all_chars P (String a s) <-> P a /\ all_chars P s.
Proof.
  split.
  - intros H. split; [exact (H "" a s eq_refl)|]. intros x b y E. apply (H (String a x) b y). rewrite E. reflexivity.
  - intros [Ha H] x b y E. destruct x as [|c x]; injection E as E1 E2; subst; [exact Ha|exact (H _ _ _ eq_refl)].
Qed.
Lemma all_app P s t : all_chars P (s ++ t) <-> all_chars P s /\ all_chars P t.
Proof.
  induction s as [|a s IH]; simpl.
  - split; [intros H; split; [apply all_nil|exact H]|intros [_ H]; exact H].
  - rewrite !all_cons, IH. tauto.
Qed.
Lemma all_impl (P Q : ascii -> Prop) s : (forall a, P a -> Q a) -> all_chars P s -> all_chars Q s.
Proof. intros H A x a y E. exact (H a (A x a y E)). Qed.
Lemma begins_cons P a s : begins P (String a s) <-> P a.
Proof. split; [intros (b & y & [= -> ->] & H); exact H|intros H; exists a, s; auto]. Qed.
Lemma begins_nil P : ~ begins P "".
Proof. intros (a & y & H & _). discriminate. Qed.

(** ** Prefixes *)
Lemma span_app p (P : ascii -> Prop) s t : (forall a, p a = true <-> P a) -> all_chars P s -> ~ begins P t -> span p (s ++ t) = String.length s.
Proof.
  intros HP. induction s as [|a s IH]; intros A B; simpl.
  - destruct t as [|b t]; [reflexivity|]. simpl. destruct (p b) eqn:E; [|reflexivity]. exfalso. apply B, begins_cons, HP, E.
  - apply all_cons in A as [Ha A]. apply HP in Ha. rewrite Ha, IH; auto.
Qed.
Lemma span_le p s : span p s <= String.length s.
Proof. induction s as [|a s IH]; simpl; [lia|]. destruct (p a); lia. Qed.
Lemma str_drop_length n s : String.length (str_drop n s) = String.length s - n.
Proof. revert s. induction n as [|n IH]; intros [|a s]; simpl; auto. Qed.
Lemma str_drop_add n m s : str_drop n (str_drop m s) = str_drop (m + n) s.
Proof. revert s. induction m as [|m IH]; intros s; [reflexivity|]. destruct s as [|a s]; simpl; [destruct n; reflexivity|apply IH]. Qed.
Lemma span_blank w s : spaces w -> ~ begins space_char s -> span is_blank (w ++ s) = String.length w /\ str_drop (span is_blank (w ++ s)) (w ++ s) = s.
Proof. intros A B. rewrite (span_app is_blank space_char w s is_blank_iff A B). split; [reflexivity|apply str_drop_app]. Qed.
Lemma drop_blank_not s : ~ begins space_char (str_drop (span is_blank s) s).
Proof.
  induction s as [|a s IH]; [exact (begins_nil _)|]. simpl. destruct (is_blank a) eqn:E; [exact IH|]. intros H. apply begins_cons, is_blank_iff in H. congruence.
Qed.

(** ** Every token but the last has a character *)
Lemma digits_pos base a s : is_digit a = true -> 1 <= fst (fst (fst (digits base (String a s)))).
Proof.
  intros H. cbn [digits]. assert (X : (if Nat.leb base 10 then is_digit a else is_hex a) = true) by (destruct (Nat.leb base 10); [exact H|]; unfold is_hex; fold (is_digit a); rewrite H; reflexivity). rewrite X. cbn [orb].
  destruct (digits base s) as [[[n d] u] i]. cbn. lia.
Qed.
Lemma scan_number_pos a s f n : is_digit a = true -> scan_number false (String a s) = Some (f, n) -> 1 <= n.
Proof.
  intros H. unfold scan_number. cbn [negb].
  set (prefix := number_prefix (String a s)). set (base := match prefix with Some x => if Ascii.eqb x "x" then 16 else if Ascii.eqb x "b" then 2 else 8 | None => 10 end).
  set (n0 := match prefix with Some x => if Ascii.eqb x "0" then 1 else 2 | None => 0 end).
  destruct (digits base (str_drop n0 (String a s))) as [[[n1 d1] u1] i1] eqn:D1.
  assert (L : 1 <= n0 + n1).
  { destruct prefix as [x|] eqn:P; [unfold n0; destruct (Ascii.eqb x "0"); lia|]. unfold n0 in D1. pose proof (digits_pos base a s H) as X. cbn [str_drop] in D1. rewrite D1 in X. cbn in X. lia. }
  set (point := match str_drop (n0 + n1) (String a s) with String a0 _ => Ascii.eqb a0 "." | EmptyString => false end).
  cbv zeta. cbn [andb orb].
  match goal with |- context [match ?X with (_, _) => _ end] => destruct X as [[[n3 d3] u3] i3] end.
  match goal with |- context [match ?X with (_, _) => _ end] => destruct X as [[[n5 u5] e] ee] end.
  match goal with |- (if ?b then _ else _) = _ -> _ => destruct b; [discriminate|] end.
  intros [= _ <-]. destruct point; lia.
Qed.
Lemma token_at_pos b c s t n : token_at b (String c s) = Some (t, n) -> 1 <= n /\ t <> TEOF.
Proof.
  unfold token_at. destruct (is_letter c); [intros [= <- <-]; split; [lia|discriminate]|]. destruct (is_digit c) eqn:D.
  - destruct b; [|intros [= <- <-]; split; [lia|discriminate]]. destruct (scan_number false (String c s)) as [[f m]|] eqn:E; [|discriminate]. intros [= <- <-]. split; [exact (scan_number_pos _ _ _ _ D E)|destruct f; discriminate].
  - destruct (Ascii.eqb c dquote); [destruct (scan_string s); [intros [= <- <-]; split; [lia|discriminate]|discriminate]|].
    destruct (Ascii.eqb c "`"); [destruct (scan_raw_string s); [intros [= <- <-]; split; [lia|discriminate]|discriminate]|].
    match goal with |- (if ?x then _ else _) = _ -> _ => destruct x end; [|intros [= <- <-]; split; [lia|discriminate]].
    destruct (scan_number true s) as [[f m]|]; [intros [= <- <-]; split; [lia|discriminate]|discriminate].
Qed.
Lemma scan_shorter s t s' : scan s = Some (t, s') ->
  nums s' = nums s /\ String.length (rest s') <= String.length (rest s) /\ (t <> TEOF -> String.length (rest s') < String.length (rest s)) /\ (t = TEOF -> rest s' = "").
Proof.
  unfold scan. set (k := span is_blank (rest s)). destruct (token_at (nums s) (str_drop k (rest s))) as [[t0 n]|] eqn:E; [|discriminate]. intros [= <- <-]. cbn [nums rest].
  rewrite !str_drop_length. destruct (str_drop k (rest s)) as [|c r] eqn:D.
  - cbn in E. injection E as <- <-. split; [reflexivity|]. split; [lia|]. split; [congruence|]. intros _. reflexivity.
  - apply token_at_pos in E as [L N]. pose proof (f_equal String.length D) as X. rewrite str_drop_length in X. cbn in X. split; [reflexivity|]. split; [lia|]. split; [intros _; lia|congruence].
Qed.
Lemma peek_no_space_shorter s h s' : peek_no_space s = (h, s') -> nums s' = nums s /\ String.length (rest s') <= String.length (rest s) /\ (h = None <-> rest s' = "") /\ forall c, h = Some c -> exists r, rest s' = String c r.
Proof.
  unfold peek_no_space. intros [= <- <-]. cbn [nums rest]. rewrite str_drop_length. destruct (str_drop _ _) eqn:E; repeat split; try lia; try congruence. intros c0 [= <-]. eauto.
Qed.

(** ** What ends a token *)
Definition stop_chars : list ascii := [ascii_of_nat 9; ascii_of_nat 10; ascii_of_nat 13; ascii_of_nat 32; ","%char; ";"%char; ":"%char; "}"%char].
Definition stops (t : string) : Prop := t = "" \/ begins (fun a => In a stop_chars) t.
Lemma space_in a : space_char a <-> In a [ascii_of_nat 9; ascii_of_nat 10; ascii_of_nat 13; ascii_of_nat 32].
Proof.
  unfold space_char, codes. split; intros H.
  - rewrite <- (ascii_nat_embedding a). cbn [In] in H. destruct H as [<-|[<-|[<-|[<-|[]]]]]; cbn [In]; auto.
  - cbn [In] in H. destruct H as [<-|[<-|[<-|[<-|[]]]]]; vm_compute; auto.
Qed.
Lemma stop_intro a : space_char a \/ a = ","%char \/ a = ";"%char \/ a = ":"%char \/ a = "}"%char -> In a stop_chars.
Proof.
  intros [H|H].
  - apply space_in in H. unfold stop_chars. cbn [In] in *. destruct H as [H|[H|[H|[H|[]]]]]; auto 10.
  - unfold stop_chars. cbn [In]. destruct H as [->|[->|[->|H]]]; auto 20.
Qed.
Ltac stop_cases H := unfold stop_chars in H; cbn [In] in H; destruct H as [<-|[<-|[<-|[<-|[<-|[<-|[<-|[<-|[]]]]]]]]].
Lemma stop_not_word a : In a stop_chars -> ~ word_char a.
Proof. intros H W. apply is_ident_iff in W. stop_cases H; discriminate. Qed.
Lemma stops_not_word t : stops t -> ~ begins word_char t.
Proof. intros [-> |(a & y & -> & H)]; [apply begins_nil|]. rewrite begins_cons. apply stop_not_word, H. Qed.

(** ** Numbers *)
Lemma digits_stop base t : stops t -> digits base t = (0, false, false, false).
Proof. intros [-> |(a & y & -> & H)]; [reflexivity|]. stop_cases H; cbn [digits]; destruct (Nat.leb base 10); reflexivity. Qed.
Lemma digit_not_underscore a : digit_char a -> Ascii.eqb a "_" = false.
Proof. intros H. apply eqb_false_ne, code_ne. unfold digit_char in H. intros E. rewrite E in H. cbn in H. lia. Qed.
Lemma digits_run base ds t : Nat.leb base 10 = true -> all_chars digit_char ds -> digits base t = (0, false, false, false) ->
  exists i, digits base (ds ++ t) = (String.length ds, negb (String.eqb ds ""), false, i) /\ (base = 10 -> i = false).
Proof.
  intros B. induction ds as [|a ds IH]; intros A T; [exists false; auto|]. apply all_cons in A as [Ha A]. destruct (IH A T) as (i & E & Hi).
  simpl append. cbn [digits]. rewrite (digit_not_underscore a Ha), B. replace (is_digit a) with true by (symmetry; apply is_digit_iff, Ha). cbn [orb negb andb]. rewrite E.
  eexists. split; [rewrite !orb_true_r; reflexivity|]. intros ->. rewrite (Hi eq_refl). cbn [orb]. apply Nat.leb_gt. unfold digit_val. replace (is_digit a) with true by (symmetry; apply is_digit_iff, Ha). unfold digit_char in Ha. unfold code. lia.
Qed.
Lemma exponent_stop p t : stops t -> scan_exponent p t = (0, false, false, false).
Proof. intros [-> |(a & y & -> & H)]; [reflexivity|]. stop_cases H; reflexivity. Qed.
Lemma digits_are_digits s z : digits_are s z -> all_chars digit_char s.
Proof. induction 1 as [|ds z a H IH Ha]; [apply all_nil|]. apply all_app. split; [exact IH|]. apply all_cons. split; [exact Ha|apply all_nil]. Qed.
Lemma natural_digits s z : natural s z -> all_chars digit_char s.
Proof. intros [H _]. exact (digits_are_digits _ _ H). Qed.
Lemma natural_cases s z : natural s z -> s = "0" \/ exists a r, s = String a r /\ digit_char a /\ Ascii.eqb a "0" = false /\ all_chars digit_char r.
Proof.
  intros [D [->|(a & r & -> & Ha & N)]]; [left; reflexivity|]. right. exists a, r. split; [reflexivity|]. split; [exact Ha|]. split; [apply eqb_false_ne, code_ne; exact N|]. apply digits_are_digits, all_cons in D. tauto.
Qed.
Lemma prefix_none a r : Ascii.eqb a "0" = false -> number_prefix (String a r) = None.
Proof. intros H. unfold number_prefix. rewrite H. destruct r; reflexivity. Qed.

Lemma scan_natural s z t : natural s z -> stops t -> scan_number false (s ++ t) = Some (false, String.length s).
Proof.
  intros N T. destruct (natural_cases _ _ N) as [->|(a & r & E & Ha & N0 & A)].
  - destruct T as [-> |(a & y & -> & H)]; [reflexivity|]. stop_cases H; reflexivity.
  - unfold scan_number. cbn [negb]. assert (P : number_prefix (s ++ t) = None) by (rewrite E; apply prefix_none, N0). rewrite P. cbv iota zeta. cbn [str_drop].
    destruct (digits_run 10 s t eq_refl (natural_digits _ _ N) (digits_stop 10 t T)) as (i & D & Hi). rewrite D, (Hi eq_refl). cbn [plus]. rewrite str_drop_app.
    assert (Pt : match t with String a0 _ => Ascii.eqb a0 "." | EmptyString => false end = false) by (destruct T as [-> |(b & y & -> & H)]; [reflexivity|stop_cases H; reflexivity]).
    rewrite Pt. cbn [andb orb plus]. rewrite Nat.add_0_r. rewrite Nat.add_0_r. rewrite str_drop_app, (exponent_stop None t T). rewrite E. cbn. rewrite Nat.add_0_r. reflexivity.
Qed.
Lemma scan_float s z u t : natural s z -> all_chars digit_char u -> u <> "" -> stops t -> scan_number false (s ++ "." ++ u ++ t) = Some (true, String.length (s ++ "." ++ u)).
Proof.
  intros N U U0 T. assert (Lu : negb (String.eqb u "") = true) by (destruct u; [congruence|reflexivity]).
  destruct (natural_cases _ _ N) as [->|(a & r & E & Ha & N0 & A)].
  - unfold scan_number. change (number_prefix ("0" ++ "." ++ u ++ t)) with (Some "0"%char). cbv iota zeta.
    change (str_drop (if Ascii.eqb "0" "0" then 1 else 2) ("0" ++ "." ++ u ++ t)) with ("." ++ u ++ t)%string. change (digits (if Ascii.eqb "0" "x" then 16 else if Ascii.eqb "0" "b" then 2 else 8) ("." ++ u ++ t)) with (0, false, false, false).
    cbv iota beta. change (Ascii.eqb "0" "0") with true. cbv iota. cbn [plus str_drop append]. change (Ascii.eqb "." ".") with true. cbn [andb orb negb plus str_drop].
    destruct (digits_run 8 u t eq_refl U (digits_stop 8 t T)) as (i & D & _). rewrite Lu in D. change (if Ascii.eqb "0" "x" then 16 else if Ascii.eqb "0" "b" then 2 else 8) with 8. rewrite D. cbv iota beta. cbn [str_drop]. rewrite str_drop_app, (exponent_stop _ t T). cbn. rewrite Nat.add_0_r. reflexivity.
  - unfold scan_number. assert (P : number_prefix (s ++ "." ++ u ++ t) = None) by (rewrite E; apply prefix_none, N0). rewrite P. cbv iota zeta. cbn [str_drop negb].
    destruct (digits_run 10 s ("." ++ u ++ t) eq_refl (natural_digits _ _ N) eq_refl) as (i & D & Hi). rewrite D, (Hi eq_refl). cbn [plus]. rewrite str_drop_app. cbn [append]. change (Ascii.eqb "." ".") with true. cbn [andb orb negb].
    assert (D2 : str_drop (String.length s + 1) (s ++ String "." (u ++ t)) = (u ++ t)%string) by (rewrite <- str_drop_add, str_drop_app; reflexivity). rewrite D2.
    destruct (digits_run 10 u t eq_refl U (digits_stop 10 t T)) as (i' & D' & Hi'). rewrite Lu in D'. rewrite D'. cbv iota beta. rewrite <- str_drop_add, D2, str_drop_app, (exponent_stop _ t T). rewrite orb_true_r. cbn.
    rewrite str_length_app. cbn. do 2 f_equal. lia.
Qed.

(** ** Strings *)
Lemma ascii_of_code e n : nat_of_ascii e = n -> e = ascii_of_nat n.
Proof. intros <-. symmetry. apply ascii_nat_embedding. Qed.
Lemma escape_table e x : In (nat_of_ascii e, nat_of_ascii x) [(97, 7); (98, 8); (102, 12); (110, 10); (114, 13); (116, 9); (118, 11); (92, 92); (34, 34)] -> simple_escape e = Some x.
Proof.
  intros H. cbn [In] in H. repeat (destruct H as [H|H]; [injection H as H1 H2; symmetry in H1, H2; apply ascii_of_code in H1, H2; subst; reflexivity|]). destruct H.
Qed.
Lemma hex_value_hex h m : hex_value h m -> is_hex h = true /\ digit_val h = m.
Proof.
  unfold hex_value. cbv zeta. intros H. unfold is_hex, digit_val, code. rewrite !orb_true_iff, !between_iff.
  destruct (is_digit h) eqn:D; [apply is_digit_iff in D|apply (bool_false _ _ (is_digit_iff h)) in D]; unfold digit_char in D; [split; lia|].
  destruct (between 97 102 h) eqn:B; [apply between_iff in B; split; lia|apply (bool_false _ _ (between_iff 97 102 h)) in B].
  destruct (between 65 70 h) eqn:C; [apply between_iff in C; split; lia|apply (bool_false _ _ (between_iff 65 70 h)) in C; lia].
Qed.
Lemma plain_char a : ~ codes [10; 34; 92] a -> Ascii.eqb a dquote = false /\ Ascii.eqb a newline = false /\ Ascii.eqb a backslash = false.
Proof. unfold codes. cbn [In]. intros H. repeat split; apply eqb_false_ne; intros ->; apply H; vm_compute; auto. Qed.
Lemma scan_quoted s v t : quoted s v -> scan_string (s ++ String quote_char t) = Some (String.length s + 1).
Proof.
  induction 1 as [|a s v N Q IH|e x s v H Q IH|h l m n x s v Hh Hl Hx Q IH]; simpl append.
  - reflexivity.
  - cbn [scan_string]. destruct (plain_char a N) as (-> & -> & ->). rewrite IH. reflexivity.
  - cbn [scan_string]. change (Ascii.eqb backslash_char dquote) with false. change (Ascii.eqb backslash_char newline) with false. change (Ascii.eqb backslash_char backslash) with true. cbv iota. rewrite (escape_table _ _ H), IH. reflexivity.
  - cbn [scan_string]. change (Ascii.eqb backslash_char dquote) with false. change (Ascii.eqb backslash_char newline) with false. change (Ascii.eqb backslash_char backslash) with true. cbv iota.
    change (simple_escape "x") with (@None ascii). change (is_octal "x") with false. change (Ascii.eqb "x" "x") with true. cbv iota. rewrite (proj1 (hex_value_hex _ _ Hh)), (proj1 (hex_value_hex _ _ Hl)), IH. reflexivity.
Qed.
Lemma unquote_quoted s v : quoted s v -> unquote_body s = Some v.
Proof.
  induction 1 as [|a s v N Q IH|e x s v H Q IH|h l m n x s v Hh Hl Hx Q IH].
  - reflexivity.
  - cbn [unquote_body]. destruct (plain_char a N) as (-> & -> & ->). cbn [orb]. rewrite IH. reflexivity.
  - cbn [unquote_body]. change (Ascii.eqb backslash_char dquote) with false. change (Ascii.eqb backslash_char newline) with false. change (Ascii.eqb backslash_char backslash) with true. cbn [orb]. rewrite (escape_table _ _ H), IH. reflexivity.
  - cbn [unquote_body]. change (Ascii.eqb backslash_char dquote) with false. change (Ascii.eqb backslash_char newline) with false. change (Ascii.eqb backslash_char backslash) with true. cbn [orb].
    change (simple_escape "x") with (@None ascii). change (is_octal "x") with false. change (Ascii.eqb "x" "x") with true. cbv iota. destruct (hex_value_hex _ _ Hh) as [-> Dh], (hex_value_hex _ _ Hl) as [-> Dl]. cbn [andb]. rewrite IH. cbn [option_map]. do 2 f_equal.
    cbn [number_of]. rewrite Dh, Dl. unfold byte. symmetry. apply ascii_of_code in Hx. rewrite Hx. unfold ascii_of_nat. f_equal. lia.
Qed.
Lemma scan_raw s t : all_chars (fun a => a <> "`"%char) s -> scan_raw_string (s ++ String "`" t) = Some (String.length s + 1).
Proof. induction s as [|a s IH]; intros A; [reflexivity|]. apply all_cons in A as [Ha A]. simpl append. cbn [scan_raw_string]. rewrite (eqb_false_ne _ _ Ha), IH by exact A. reflexivity. Qed.
Lemma filter_str_all p s : all_chars (fun a => p a = true) s -> filter_str p s = s.
Proof. induction s as [|a s IH]; intros A; [reflexivity|]. apply all_cons in A as [Ha A]. cbn. rewrite Ha, IH by exact A. reflexivity. Qed.
Lemma take_but_last s a : str_take (String.length (s ++ String a "") - 1) (s ++ String a "") = s.
Proof. rewrite str_length_app. cbn. replace (String.length s + 1 - 1) with (String.length s) by lia. apply str_take_app. Qed.

(** ** Tokens *)
Lemma token_natural s z t : natural s z -> stops t -> token_at true (s ++ t) = Some (TInt, String.length s).
Proof.
  intros N T. pose proof (scan_natural _ _ _ N T) as E. assert (X : exists a r, (s ++ t)%string = String a r /\ digit_char a) by (destruct (natural_cases _ _ N) as [->|(a & r & -> & Ha & _)]; [exists "0"%char; eexists; split; [reflexivity|vm_compute; lia]|exists a, (r ++ t)%string; auto]).
  destruct X as (a & r & X & Ha). rewrite X in *. unfold token_at. assert (is_letter a = false) by (apply (bool_false _ _ (is_letter_iff a)); unfold letter_char, digit_char in *; cbv zeta; lia). rewrite H. replace (is_digit a) with true by (symmetry; apply is_digit_iff, Ha). rewrite E. reflexivity.
Qed.
Lemma token_float s z u t : natural s z -> all_chars digit_char u -> u <> "" -> stops t -> token_at true ((s ++ "." ++ u) ++ t) = Some (TFloat, String.length (s ++ "." ++ u)).
Proof.
  intros N U U0 T. pose proof (scan_float _ _ _ _ N U U0 T) as E. rewrite !str_app_assoc. assert (X : exists a r, (s ++ "." ++ u ++ t)%string = String a r /\ digit_char a) by (destruct (natural_cases _ _ N) as [->|(a & r & -> & Ha & _)]; [exists "0"%char; eexists; split; [reflexivity|vm_compute; lia]|exists a; eexists; split; [reflexivity|exact Ha]]).
  destruct X as (a & r & X & Ha). rewrite X in *. unfold token_at. assert (is_letter a = false) by (apply (bool_false _ _ (is_letter_iff a)); unfold letter_char, digit_char in *; cbv zeta; lia). rewrite H. replace (is_digit a) with true by (symmetry; apply is_digit_iff, Ha). rewrite E. reflexivity.
Qed.
Lemma token_word b a s t : letter_char a -> all_chars word_char s -> ~ begins word_char t -> token_at b (String a s ++ t) = Some (TIdent, String.length (String a s)).
Proof. intros Ha A T. simpl append. unfold token_at. replace (is_letter a) with true by (symmetry; apply is_letter_iff, Ha). rewrite (span_app is_ident word_char s t is_ident_iff A T). reflexivity. Qed.
Lemma token_quoted b s v t : quoted s v -> token_at b ((String quote_char s ++ String quote_char "") ++ t) = Some (TString, String.length (String quote_char s ++ String quote_char "")) /\ unquote (String quote_char s ++ String quote_char "") = Some v.
Proof.
  intros Q. split.
  - rewrite str_app_assoc. simpl append. unfold token_at. change (is_letter quote_char) with false. change (is_digit quote_char) with false. change (Ascii.eqb quote_char dquote) with true. cbv iota. rewrite (scan_quoted _ _ _ Q). cbn [String.length]. rewrite str_length_app. reflexivity.
  - simpl append. unfold unquote. rewrite take_but_last. change (Ascii.eqb quote_char "`") with false. exact (unquote_quoted _ _ Q).
Qed.
Lemma token_raw b s t : all_chars (fun a => a <> "`"%char /\ nat_of_ascii a <> 13) s -> token_at b (("`" ++ s ++ "`") ++ t) = Some (TRawString, String.length ("`" ++ s ++ "`")) /\ unquote ("`" ++ s ++ "`") = Some s.
Proof.
  intros A. split.
  - rewrite !str_app_assoc. simpl append. unfold token_at. change (is_letter "`") with false. change (is_digit "`") with false. change (Ascii.eqb "`" dquote) with false. change (Ascii.eqb "`" "`") with true. cbv iota. rewrite scan_raw by (eapply all_impl; [|exact A]; intros a [H _]; exact H). cbn [String.length]. rewrite str_length_app. reflexivity.
  - simpl append. unfold unquote. rewrite take_but_last. change (Ascii.eqb "`" "`") with true. cbv iota. f_equal. apply filter_str_all. eapply all_impl; [|exact A]. intros a [_ H]. apply negb_true_iff, Nat.eqb_neq. exact H.
Qed.
Definition plain_token (c : ascii) : bool := negb (is_letter c || is_digit c || Ascii.eqb c dquote || Ascii.eqb c "`" || Ascii.eqb c ".").
Lemma token_char b c t : plain_token c = true -> token_at b (String c t) = Some (TChar c, 1).
Proof.
  unfold plain_token. rewrite negb_true_iff, !orb_false_iff. intros ((((H1 & H2) & H3) & H4) & H5). unfold token_at. rewrite H1, H2, H3, H4, H5. reflexivity.
Qed.

Lemma scan_token b p w s t o x tok : spaces w -> ~ begins space_char (s ++ t) -> token_at b (s ++ t) = Some (tok, String.length s) ->
  scan (mkScanner b p (w ++ s ++ t) o x) = Some (tok, mkScanner b (p + String.length w + String.length s) t (p + String.length w) s).
Proof.
  intros W N T. unfold scan. cbn [rest nums pos]. destruct (span_blank w (s ++ t) W N) as [-> ->]. rewrite T, str_drop_app, str_take_app. reflexivity.
Qed.
Lemma scan_char b p w c t o x : spaces w -> plain_token c = true -> ~ space_char c ->
  scan (mkScanner b p (w ++ String c t) o x) = Some (TChar c, mkScanner b (p + String.length w + 1) t (p + String.length w) (String c "")).
Proof.
  intros W P N. apply (scan_token b p w (String c "") t o x (TChar c) W); [cbn; rewrite begins_cons; exact N|exact (token_char b c t P)].
Qed.
Lemma peek_skip b p w s o x : spaces w -> ~ begins space_char s ->
  exists x', peek_no_space (mkScanner b p (w ++ s) o x) = (match s with EmptyString => None | String a _ => Some a end, mkScanner b (p + String.length w) s o x') /\ (w = "" -> x' = x).
Proof.
  intros W N. unfold peek_no_space. cbn [rest nums pos off txt]. destruct (span_blank w s W N) as [-> ->]. eexists. split; [reflexivity|]. intros ->. reflexivity.
Qed.
