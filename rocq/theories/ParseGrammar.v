(** * The parser reads every text of the grammar as its value: guessing, slices and maps. *)
From Coq Require Import List String Ascii Bool Arith NArith ZArith Lia.
From Verif Require Import GoLib GoLibFacts ScanModel ParseModel ParseSpec ScanProofs ParseTerm ParseProofs.
Import ListNotations.
Open Scope string_scope.
Open Scope list_scope.

Lemma not_space_plain c : plain_token c = true -> is_blank c = false -> ~ space_char c.
Proof. intros _ B. apply (bool_false _ _ (is_blank_iff c)), B. Qed.

(** ** Looking for a ';' *)
Definition look_ok (u : string) (b : bool) : Prop :=
  forall w n p o x, spaces w -> String.length (w ++ u) < n -> look_semicolon n (mkScanner true p (w ++ u) o x) = Ok b.
Lemma look_spaces w u b : spaces w -> look_ok u b -> look_ok (w ++ u) b.
Proof. intros W H w' n p o x W' L. rewrite <- str_app_assoc in *. apply H; [apply spaces_app; auto|exact L]. Qed.
Lemma look_token s t tok b : s <> "" -> ~ begins space_char (s ++ t) -> token_at true (s ++ t) = Some (tok, String.length s) -> tok <> TEOF -> is_chr tok "," = false -> is_chr tok ";" = false -> look_ok t b -> look_ok (s ++ t) b.
Proof.
  intros S0 N T K1 K2 K3 H w n p o x W L. destruct n as [|n]; [lia|]. cbn [look_semicolon]. unfold scan'. rewrite (scan_token true p w s t o x tok W N T). cbn [of_option bind]. rewrite K2, K3.
  assert (X : look_semicolon n (mkScanner true (p + String.length w + String.length s) t (p + String.length w) s) = Ok b) by (apply (H "" n); [apply spaces_nil|]; destruct s; [congruence|]; rewrite !str_length_app in *; simpl in *; lia).
  rewrite X. destruct tok; try reflexivity. congruence.
Qed.
Lemma look_char c t b : plain_token c = true -> is_blank c = false -> Ascii.eqb c "," = false -> Ascii.eqb c ";" = false -> look_ok t b -> look_ok (String c t) b.
Proof.
  intros P B C1 C2 H. apply (look_token (String c "") t (TChar c) b); try assumption; try discriminate; [simpl append; rewrite begins_cons; exact (not_space_plain c P B)|exact (token_char true c t P)].
Qed.
Lemma look_nil : look_ok "" false.
Proof.
  intros w n p o x W L. destruct n as [|n]; [lia|]. cbn [look_semicolon]. unfold scan'. pose proof (scan_token true p w "" "" o x TEOF W (begins_nil _) eq_refl) as E. simpl append in E. rewrite E. reflexivity.
Qed.
Lemma look_stop c t : c = ","%char \/ c = ";"%char -> look_ok (String c t) (Ascii.eqb c ";").
Proof.
  intros C w n p o x W L. destruct n as [|n]; [lia|]. cbn [look_semicolon]. unfold scan'. rewrite (scan_char true p w c t o x W); [|destruct C as [-> | ->]; reflexivity|destruct C as [-> | ->]; unfold space_char, codes; vm_compute; intuition discriminate]. destruct C as [-> | ->]; reflexivity.
Qed.
Lemma look_calm t : calm t -> look_ok t false.
Proof.
  intros (x & y & -> & X & Y). induction x as [|a x IH].
  - destruct Y as [->|(a & r & -> & ->)]; [exact look_nil|]. exact (look_stop "," r (or_introl eq_refl)).
  - apply all_cons in X as [[Ha| ->] X].
    + change (String a x ++ y)%string with (String a "" ++ (x ++ y))%string. apply look_spaces; [apply all_cons; split; [exact Ha|apply spaces_nil]|exact (IH X)].
    + apply look_char; try reflexivity. exact (IH X).
Qed.
Lemma word_split r : exists y u, r = (y ++ u)%string /\ all_chars word_char y /\ ~ begins word_char u.
Proof.
  induction r as [|a r IH]; [exists "", ""; split; [reflexivity|]; split; [apply all_nil|apply begins_nil]|]. destruct (is_ident a) eqn:E.
  - destruct IH as (y & u & -> & Y & U). exists (String a y), u. split; [reflexivity|]. split; [|exact U]. apply all_cons. split; [apply is_ident_iff, E|exact Y].
  - exists "", (String a r). split; [reflexivity|]. split; [apply all_nil|]. rewrite begins_cons. apply (bool_false _ _ (is_ident_iff a)), E.
Qed.
Lemma not_begins_app P u t : ~ begins P u -> ~ begins P t -> ~ begins P (u ++ t).
Proof. destruct u as [|a u]; simpl append; [auto|]. rewrite !begins_cons. auto. Qed.
Lemma letter_not_space a : letter_char a -> ~ space_char a.
Proof. unfold letter_char, space_char, codes. cbv zeta. cbn [In]. lia. Qed.
Lemma last_unique x a y b : (x ++ String a "")%string = (y ++ String b "")%string -> a = b.
Proof.
  revert y. induction x as [|c x IH]; intros [|d y] E; simpl in E.
  - congruence.
  - injection E as _ E. destruct y; discriminate.
  - injection E as _ E. destruct x; discriminate.
  - injection E as _ E. exact (IH _ E).
Qed.
(** the token at the start of a word or a sign in a bare string *)
Lemma plain_bare c r : bare_char c -> is_letter c = false -> is_digit c = false -> ~ (c = "."%char /\ begins digit_char r) -> token_at true (String c r) = Some (TChar c, 1).
Proof.
  intros [H Q] L D P. unfold token_at. rewrite L, D. rewrite (eqb_false_ne c dquote) by exact Q. rewrite (eqb_false_ne c "`") by (intros ->; apply H; cbn; auto 6).
  destruct (Ascii.eqb_spec c ".") as [-> |N]; [|reflexivity]. destruct r as [|d r]; [reflexivity|]. destruct (is_digit d) eqn:E; [|reflexivity]. exfalso. apply P. split; [reflexivity|]. rewrite begins_cons. apply is_digit_iff, E.
Qed.
Lemma digit_word a : digit_char a -> word_char a.
Proof. right. assumption. Qed.
Lemma look_words n s t b : all_chars bare_char s -> (forall x a y, s = (x ++ String a y)%string -> digit_char a -> exists x' c, x = (x' ++ String c "")%string /\ word_char c) ->
  stops t -> look_ok t b -> forall x u, s = (x ++ u)%string -> ~ begins digit_char u -> String.length u < n -> look_ok (u ++ t) b.
Proof.
  intros A Dg T H. pose proof (stops_not_word _ T) as TW. induction n as [|n IH]; intros x u E N L; [lia|]. destruct (blank_split u) as (w & v & Eu & W & Nv). subst u. rewrite str_app_assoc. apply look_spaces; [exact W|].
  destruct v as [|c r]; [exact H|].
  assert (Bc : bare_char c) by (apply (A (x ++ w)%string c r); rewrite E, str_app_assoc; reflexivity).
  assert (Nd : is_digit c = false).
  { apply (bool_false _ _ (is_digit_iff c)). intros X. destruct w as [|d w]; [apply N; simpl append; rewrite begins_cons; exact X|].
    destruct (Dg (x ++ String d w)%string c r) as (x' & e & Ex & He); [rewrite E, str_app_assoc; reflexivity|exact X|].
    destruct (split_at (String.length w) (String d w)) as (y & z & Ew & Lz); [simpl; lia|]. assert (Z : exists f, z = String f "").
    { assert (Lw : String.length (String d w) = String.length y + String.length z) by (rewrite Ew; apply str_length_app). simpl in Lw. destruct z as [|f [|g z]]; simpl in Lw; try lia. eauto. }
    destruct Z as [f ->]. rewrite Ew, <- str_app_assoc in Ex. apply last_unique in Ex. subst f. apply (stop_not_word e); [|exact He]. apply stop_intro. left. exact (W y e "" Ew). }
  destruct (is_letter c) eqn:Lc.
  - destruct (word_split r) as (y & u' & -> & Y & U').
    assert (Tk : token_at true (String c y ++ (u' ++ t)) = Some (TIdent, String.length (String c y))) by (apply token_word; [apply is_letter_iff, Lc|exact Y|apply not_begins_app; assumption]).
    replace (String c (y ++ u') ++ t)%string with (String c y ++ (u' ++ t))%string by (simpl; rewrite str_app_assoc; reflexivity). apply (look_token (String c y) (u' ++ t) TIdent b); try discriminate; try reflexivity; [simpl append; rewrite begins_cons; apply letter_not_space, is_letter_iff, Lc|exact Tk|].
    apply (IH (x ++ w ++ String c y)%string u'); [rewrite E, !str_app_assoc; reflexivity|intros (a & z & -> & Ha); apply U'; rewrite begins_cons; exact (digit_word a Ha)|]. rewrite str_length_app in L. simpl in L. rewrite str_length_app in L. lia.
  - assert (Wc : ~ word_char c) by (intros X; apply is_ident_iff in X; unfold is_ident in X; rewrite Lc, Nd in X; discriminate).
    assert (Nr : ~ begins digit_char r).
    { intros (d & z & -> & Hd). destruct (Dg (x ++ w ++ String c "")%string d z) as (x' & e & Ex & He); [rewrite E, !str_app_assoc; reflexivity|exact Hd|]. rewrite <- str_app_assoc in Ex. apply last_unique in Ex. congruence. }
    assert (Tk : token_at true (String c (r ++ t)) = Some (TChar c, 1)).
    { apply plain_bare; try assumption. intros [_ X]. revert X. apply not_begins_app; [exact Nr|]. intros (a & z & -> & Ha). apply TW. rewrite begins_cons. exact (digit_word a Ha). }
    destruct Bc as [Bs _]. apply (look_token (String c "") (r ++ t) (TChar c) b); try discriminate; [simpl append; rewrite begins_cons in *; exact Nv|exact Tk|apply eqb_false_ne; intros ->; apply Bs; cbn; auto|apply eqb_false_ne; intros ->; apply Bs; cbn; auto|].
    apply (IH (x ++ w ++ String c "")%string r); [rewrite E, !str_app_assoc; reflexivity|exact Nr|]. rewrite str_length_app in L. simpl in L. lia.
Qed.
Lemma look_wordy s t b : wordy s -> stops t -> look_ok t b -> look_ok (s ++ t) b.
Proof.
  intros (B & Dg & _) T H. destruct (bare_parts _ B) as (a & r & E & N1 & _ & Ha & Al & _).
  refine (look_words (S (String.length s)) s t b _ Dg T H "" s eq_refl _ (Nat.lt_succ_diag_r _)).
  - rewrite E. apply all_cons. auto.
  - rewrite E, begins_cons. intros X. destruct (Dg "" a r E X) as (x' & c & Ex & _). destruct x'; discriminate.
Qed.
Lemma quote_not_space r : ~ begins space_char (String quote_char r) /\ ~ begins space_char (String "`" r).
Proof. rewrite !begins_cons. unfold space_char, codes. vm_compute. intuition discriminate. Qed.
Lemma look_text s v k t b : text s v k -> (k = true -> wordy s) -> stops t -> look_ok t b -> look_ok (s ++ t) b.
Proof.
  intros [s0 v0 Q|s0 Al|s0 B] Wd T H.
  - destruct (token_quoted true s0 v0 t Q) as [Tk _]. apply (look_token _ t TString b); try discriminate; try reflexivity; [rewrite str_app_assoc; simpl append; apply quote_not_space|exact Tk|exact H].
  - destruct (token_raw true s0 t Al) as [Tk _]. apply (look_token _ t TRawString b); try discriminate; try reflexivity; [rewrite str_app_assoc; simpl append; apply quote_not_space|exact Tk|exact H].
  - exact (look_wordy s0 t b (Wd eq_refl) T H).
Qed.
Lemma nonempty_natural s z : natural s z -> s <> "".
Proof. intros N. destruct (natural_first _ _ N) as (a & r & -> & _). discriminate. Qed.
Lemma natural_not_space s z t : natural s z -> ~ begins space_char (s ++ t).
Proof. intros N. destruct (natural_first _ _ N) as (a & r & E & Ha). exact (digit_begin _ _ _ t E Ha). Qed.
Lemma look_integer s z t b : integer s z -> stops t -> look_ok t b -> look_ok (s ++ t) b.
Proof.
  intros I T H. assert (Nat : forall s0 z0, natural s0 z0 -> look_ok (s0 ++ t) b).
  { intros s0 z0 N. apply (look_token s0 t TInt b); try discriminate; try reflexivity; [exact (nonempty_natural _ _ N)|exact (natural_not_space _ _ t N)|exact (token_natural _ _ _ N T)|exact H]. }
  destruct I as [N|(t0 & y & -> & N & _)]; [exact (Nat _ _ N)|]. simpl append. apply look_char; try reflexivity. exact (Nat _ _ N).
Qed.
Lemma look_float t1 u z t b : integer t1 z -> all_chars digit_char u -> u <> "" -> stops t -> look_ok t b -> look_ok ((t1 ++ "." ++ u) ++ t) b.
Proof.
  intros I U U0 T H. assert (Nat : forall s0 z0, natural s0 z0 -> look_ok ((s0 ++ "." ++ u) ++ t) b).
  { intros s0 z0 N. apply (look_token _ t TFloat b); try discriminate; try reflexivity; [destruct (natural_first _ _ N) as (a & r & -> & _); discriminate|rewrite str_app_assoc; exact (natural_not_space _ _ _ N)|exact (token_float _ _ _ _ N U U0 T)|exact H]. }
  destruct I as [N|(t0 & y & -> & N & _)]; [exact (Nat _ _ N)|]. simpl append. apply look_char; try reflexivity. exact (Nat _ _ N).
Qed.
Lemma look_bool s t b : s = "true" \/ s = "false" -> stops t -> look_ok t b -> look_ok (s ++ t) b.
Proof.
  intros E T H. apply (look_token s t TIdent b); try discriminate; try reflexivity; [destruct E as [-> | ->]; discriminate|destruct E as [-> | ->]; simpl append; rewrite begins_cons; unfold space_char, codes; vm_compute; intuition discriminate| |exact H].
  destruct E as [-> | ->]; [apply (token_word true "t" "rue")|apply (token_word true "f" "alse")]; try (vm_compute; lia); try (apply stops_not_word, T); repeat (apply all_cons; split; [left; vm_compute; lia|]); apply all_nil.
Qed.
Lemma look_scalar s a t b : guessed s a -> scalar a -> stops t -> look_ok t b -> look_ok (s ++ t) b.
Proof.
  intros G Sc T H. inversion G as [s0 z I|s0 t1 u z E I U U0|s0 E|s0 v k Tx Wd|w W|w k kv kb w1 w2 s0 a0 r W Tx Hk W1 W2 G0 C|w s0 a0 r W G0 C]; subst.
  - exact (look_integer _ _ _ _ I T H).
  - exact (look_float _ _ _ _ _ I U U0 T H).
  - exact (look_bool _ _ _ E T H).
  - exact (look_text _ _ _ _ _ Tx Wd T H).
  - exfalso. destruct Sc as [|[|[|[]]]]; discriminate.
  - exfalso. destruct Sc as [|[|[|[]]]]; discriminate.
  - exfalso. destruct Sc as [|[|[|[]]]]; discriminate.
Qed.
Lemma look_guessed s a : guessed s a -> forall t, calm t -> look_ok (s ++ t) false.
Proof.
  induction 1 as [s z I|s t1 u z E I U U0|s E|s v k Tx Wd|w W|w k kv kb w1 w2 s a r W Tx Hk W1 W2 G IH C|w s a r W G IH C]; intros t Ct; pose proof (look_calm _ Ct) as H; pose proof (follow_stops _ (follow_nc_follow _ (calm_follow _ Ct))) as T.
  - exact (look_integer _ _ _ _ I T H).
  - subst s. exact (look_float _ _ _ _ _ I U U0 T H).
  - exact (look_bool _ _ _ E T H).
  - exact (look_text _ _ _ _ _ Tx Wd T H).
  - simpl append. apply look_char; try reflexivity. rewrite str_app_assoc. apply look_spaces; [exact W|]. simpl append. apply look_char; try reflexivity. exact H.
  - simpl append. apply look_char; try reflexivity. rewrite !str_app_assoc. apply look_spaces; [exact W|]. apply (look_text k kv kb _ _ Tx); [intros X; apply (Hk X)| |].
    + apply follow_stops, follow_spaces; [exact W1|]. simpl append. apply follow_char. cbn. auto.
    + apply look_spaces; [exact W1|]. simpl append. apply look_char; try reflexivity. rewrite !str_app_assoc. apply look_spaces; [exact W2|]. apply IH, calm_app; assumption.
  - simpl append. apply look_char; try reflexivity. rewrite !str_app_assoc. apply look_spaces; [exact W|]. apply IH, calm_app; assumption.
Qed.

(** ** Guessing *)
Lemma guess_numeric raw st s t tok : at_ raw st (s ++ t) -> ~ begins space_char (s ++ t) -> token_at true (s ++ t) = Some (tok, String.length s) -> is_chr tok "-" = false ->
  numeric_guess st = match tok with TInt => Ok (AInt false) | TFloat => Ok ANum | _ => Ok AStr end.
Proof.
  intros A N T C. destruct (at_scan raw st "" s t tok A spaces_nil N T) as (st' & E & _). unfold numeric_guess. rewrite E. cbn [bind]. rewrite C. reflexivity.
Qed.
Lemma guess_minus raw st t : at_ raw st (String "-" t) -> exists st', at_ raw st' t /\ numeric_guess st = do (t', _) <- scan' st'; match t' with TInt => Ok (AInt false) | TFloat => Ok ANum | _ => Ok AStr end.
Proof.
  intros A. destruct (at_char raw st "" "-" t A spaces_nil eq_refl) as (st' & E & A'); [unfold space_char, codes; vm_compute; intuition discriminate|]. exists st'. split; [exact A'|]. unfold numeric_guess. rewrite E. reflexivity.
Qed.
Lemma guess_unfold n sub : guess (S n) sub =
  let '(h, s1) := peek_no_space (new_scanner sub) in
  match h with
  | None => numeric_guess s1
  | Some c =>
      if Ascii.eqb c dquote || Nat.eqb (code c) 39 || Ascii.eqb c "`" then Ok AStr
      else if Ascii.eqb c "{" then
        do (_, s2) <- scan' s1;
        let '(h2, s3) := peek_no_space s2 in
        do first <- guess n (rest s3);
        match first with
        | AStr =>
            do (_, s4) <- parse_string sub s3;
            do (t, _) <- scan' s4;
            if is_chr t ":" || match h2 with Some c2 => Ascii.eqb c2 "}" | None => false end
            then Ok (AMap AAny) else Ok (ASlice first)
        | _ => Ok (ASlice first)
        end
      else if Ascii.eqb c "t" || Ascii.eqb c "f" then
        do (t, s2) <- scan' s1;
        match t with
        | TIdent => if String.eqb (txt s2) "true" || String.eqb (txt s2) "false" then Ok ABool else Ok AStr
        | _ => Err
        end
      else numeric_guess s1
  end.
Proof. reflexivity. Qed.
Definition opens (c : ascii) : bool := Ascii.eqb c dquote || Nat.eqb (code c) 39 || Ascii.eqb c "`" || Ascii.eqb c "{" || Ascii.eqb c "t" || Ascii.eqb c "f".
Lemma guess_other n sub w c r : sub = (w ++ String c r)%string -> spaces w -> ~ space_char c -> opens c = false -> exists st, at_ sub st (String c r) /\ guess (S n) sub = numeric_guess st.
Proof.
  intros E W N O. assert (A : at_ sub (new_scanner sub) (w ++ String c r)) by (rewrite <- E; apply at_start). destruct (at_peek sub _ w (String c r) A W) as (st & P & A'); [rewrite begins_cons; exact N|]. exists st. split; [exact A'|].
  rewrite guess_unfold, P. cbn [head_]. unfold opens in O. rewrite !orb_false_iff in O. destruct O as (((((O1 & O2) & O3) & O4) & O5) & O6). rewrite O1, O2, O3, O4, O5, O6. reflexivity.
Qed.
Lemma digit_opens a : digit_char a -> opens a = false.
Proof.
  intros H. unfold opens. rewrite !orb_false_iff. assert (X : forall c, nat_of_ascii c < 48 \/ 57 < nat_of_ascii c -> Ascii.eqb a c = false) by (intros c L; apply eqb_false_ne; intros ->; unfold digit_char in H; lia). repeat split; try (apply X; vm_compute; lia). apply Nat.eqb_neq. unfold code. unfold digit_char in H. lia.
Qed.
Lemma guess_number n w s z t : integer s z -> stops t -> spaces w -> guess (S n) (w ++ s ++ t) = Ok (AInt false).
Proof.
  intros [N|(t0 & y & -> & N & _)] T W.
  - destruct (natural_first _ _ N) as (a & r & E & Ha). destruct (guess_other n (w ++ s ++ t) w a (r ++ t)) as (st & A & ->); [rewrite E; reflexivity|exact W|apply digit_not_sign, Ha|exact (digit_opens a Ha)|].
    rewrite (guess_numeric (w ++ s ++ t) st s t TInt); [reflexivity|rewrite E in *; exact A|exact (natural_not_space _ _ t N)|exact (token_natural _ _ _ N T)|reflexivity].
  - destruct (guess_other n (w ++ ("-" ++ t0) ++ t) w "-" (t0 ++ t)) as (st & A & ->); [reflexivity|exact W|unfold space_char, codes; vm_compute; intuition discriminate|reflexivity|].
    destruct (guess_minus _ st _ A) as (st' & A' & ->). destruct (at_scan _ st' "" t0 t TInt A' spaces_nil (natural_not_space _ _ t N) (token_natural _ _ _ N T)) as (st2 & -> & _). reflexivity.
Qed.
Lemma guess_float n w t1 u z t : integer t1 z -> all_chars digit_char u -> u <> "" -> stops t -> spaces w -> guess (S n) (w ++ (t1 ++ "." ++ u) ++ t) = Ok ANum.
Proof.
  intros [N|(t0 & y & -> & N & _)] U U0 T W.
  - destruct (natural_first _ _ N) as (a & r & E & Ha). destruct (guess_other n (w ++ (t1 ++ "." ++ u) ++ t) w a ((r ++ "." ++ u) ++ t)) as (st & A & ->); [rewrite E; reflexivity|exact W|apply digit_not_sign, Ha|exact (digit_opens a Ha)|].
    rewrite (guess_numeric _ st (t1 ++ "." ++ u) t TFloat (ltac:(rewrite E in *; exact A))); [reflexivity|rewrite str_app_assoc; exact (natural_not_space _ _ _ N)|exact (token_float _ _ _ _ N U U0 T)|reflexivity].
  - destruct (guess_other n (w ++ (("-" ++ t0) ++ "." ++ u) ++ t) w "-" ((t0 ++ "." ++ u) ++ t)) as (st & A & ->); [reflexivity|exact W|unfold space_char, codes; vm_compute; intuition discriminate|reflexivity|].
    destruct (guess_minus _ st _ A) as (st' & A' & ->). destruct (at_scan _ st' "" (t0 ++ "." ++ u) t TFloat A' spaces_nil (ltac:(rewrite str_app_assoc; exact (natural_not_space _ _ _ N))) (token_float _ _ _ _ N U U0 T)) as (st2 & -> & _). reflexivity.
Qed.
Lemma guess_ident n w c y u : letter_char c -> all_chars word_char y -> ~ begins word_char u -> spaces w ->
  guess (S n) (w ++ String c y ++ u) = Ok (if String.eqb (String c y) "true" || String.eqb (String c y) "false" then ABool else AStr).
Proof.
  intros Lc Y U W. set (sub := (w ++ String c y ++ u)%string). assert (A : at_ sub (new_scanner sub) (w ++ String c y ++ u)) by apply at_start.
  assert (N : ~ begins space_char (String c y ++ u)) by (simpl append; rewrite begins_cons; apply letter_not_space, Lc). destruct (at_peek sub _ w _ A W N) as (st & P & A'). pose proof (token_word true c y u Lc Y U) as Tk.
  rewrite guess_unfold, P. cbn [head_ append].
  assert (X : forall d, is_letter d = false -> Ascii.eqb c d = false) by (intros d D; apply eqb_false_ne; intros ->; apply is_letter_iff in Lc; congruence). rewrite (X dquote), (X "`"%char), (X "{"%char) by reflexivity.
  replace (Nat.eqb (code c) 39) with false by (symmetry; apply Nat.eqb_neq; intros E; apply is_letter_iff in Lc; unfold is_letter, between in Lc; rewrite E in Lc; discriminate). cbn [orb].
  destruct (Ascii.eqb c "t" || Ascii.eqb c "f") eqn:C.
  - destruct (at_scan sub st "" (String c y) u TIdent A' spaces_nil N Tk) as (st' & E & _ & Xt). rewrite E. cbn [bind]. rewrite Xt. destruct (String.eqb _ _ || String.eqb _ _); reflexivity.
  - rewrite (guess_numeric sub st (String c y) u TIdent A' N Tk eq_refl). apply orb_false_iff in C as [C1 C2]. cbn [String.eqb]. rewrite C1, C2. reflexivity.
Qed.
Lemma guess_text n w s v k t : text s v k -> (k = true -> wordy s) -> follow t -> spaces w -> guess (S n) (w ++ s ++ t) = Ok AStr.
Proof.
  intros Tx Wd F W. pose proof (stops_not_word _ (follow_stops _ F)) as TW. destruct Tx as [s0 v0 Q|s0 Al|s0 B].
  - set (sub := (w ++ (String quote_char s0 ++ String quote_char "") ++ t)%string). assert (A : at_ sub (new_scanner sub) (w ++ (String quote_char s0 ++ String quote_char "") ++ t)) by apply at_start. destruct (at_peek sub _ w _ A W) as (st & P & _); [rewrite str_app_assoc; simpl append; apply quote_not_space|]. rewrite guess_unfold, P. reflexivity.
  - set (sub := (w ++ ("`" ++ s0 ++ "`") ++ t)%string). assert (A : at_ sub (new_scanner sub) (w ++ ("`" ++ s0 ++ "`") ++ t)) by apply at_start. destruct (at_peek sub _ w _ A W) as (st & P & _); [rewrite str_app_assoc; simpl append; apply quote_not_space|]. rewrite guess_unfold, P. reflexivity.
  - destruct (Wd eq_refl) as (_ & Dg & Tf). destruct (bare_parts _ B) as (c & r & E & N1 & Nb & Bc & Al & _). rewrite E.
    destruct (is_letter c) eqn:Lc.
    + destruct (word_split r) as (y & u & -> & Y & U). replace (String c (y ++ u) ++ t)%string with (String c y ++ (u ++ t))%string by (simpl; rewrite str_app_assoc; reflexivity).
      rewrite (guess_ident n w c y (u ++ t)); [|apply is_letter_iff, Lc|exact Y|apply not_begins_app; assumption|exact W]. do 2 f_equal.
      destruct (String.eqb _ _ || String.eqb _ _) eqn:O; [|reflexivity]. exfalso. apply U. apply (Tf (String c y) u); [rewrite E; reflexivity|]. apply orb_true_iff in O as [O|O]; apply String.eqb_eq in O; auto.
    + assert (Nd : is_digit c = false) by (apply (bool_false _ _ (is_digit_iff c)); intros X; destruct (Dg "" c r E X) as (x' & d & Ex & _); destruct x'; discriminate).
      assert (Wc : ~ word_char c) by (intros X; apply is_ident_iff in X; unfold is_ident in X; rewrite Lc, Nd in X; discriminate).
      assert (Nr : ~ begins digit_char r) by (intros (d & z & -> & Hd); destruct (Dg (String c "") d z) as (x' & e & Ex & He); [rewrite E; reflexivity|exact Hd|]; apply (last_unique "" c) in Ex; congruence).
      assert (Tk : token_at true (String c "" ++ (r ++ t)) = Some (TChar c, 1)).
      { apply plain_bare; try assumption. intros [_ X]. revert X. apply not_begins_app; [exact Nr|]. intros (a & z & -> & Ha). apply TW. rewrite begins_cons. exact (digit_word a Ha). }
      assert (A : at_ (w ++ String c r ++ t) (new_scanner (w ++ String c r ++ t)) (w ++ String c r ++ t)) by apply at_start. assert (N : ~ begins space_char (String c r ++ t)) by (simpl append; rewrite begins_cons; exact N1).
      destruct (at_peek _ _ w _ A W N) as (st & P & A'). rewrite guess_unfold, P. cbn [head_ append].
      destruct (_ || _ || _); [reflexivity|]. rewrite (eqb_false_ne c "{" Nb). replace (Ascii.eqb c "t" || Ascii.eqb c "f") with false by (symmetry; apply orb_false_iff; split; apply eqb_false_ne; intros ->; discriminate).
      destruct (Ascii.eqb_spec c "-") as [-> |Nm].
      * destruct (guess_minus _ st _ A') as (st' & A2 & ->). destruct (blank_split (r ++ t)) as (w' & v & Ev & W' & Nv). fold ((r ++ t)%string) in A2. rewrite Ev in A2.
        destruct v as [|d v].
        -- rewrite str_app_nil_r in A2. destruct (at_end_scan _ _ _ A2 W') as (st2 & ->). reflexivity.
        -- (* the token after the sign *)
           assert (Hd : In d seps \/ (bare_char d /\ is_digit d = false /\ ~ (d = "."%char /\ begins digit_char v))).
           { (* is d in r or in t? *)
             destruct (blank_split r) as (wr & vr & Er & Wr & Nvr). destruct vr as [|e vr].
             - rewrite str_app_nil_r in Er. left. destruct F as (wt & t' & -> & Wt & Et). rewrite Er, <- str_app_assoc in Ev.
               assert (Same : forall a b x y, spaces a -> spaces b -> ~ begins space_char x -> ~ begins space_char y -> (a ++ x)%string = (b ++ y)%string -> x = y).
               { clear. induction a as [|c a IH]; intros b x y A B X Y E; destruct b as [|d b]; simpl in E; [exact E|subst x; exfalso; apply X; rewrite begins_cons; apply all_cons in B; tauto|subst y; exfalso; apply Y; rewrite begins_cons; apply all_cons in A; tauto|]. injection E as -> E. apply all_cons in A as [_ A]. apply all_cons in B as [_ B]. exact (IH _ _ _ A B X Y E). }
               assert (Eq : t' = String d v) by (refine (Same _ _ _ _ _ W' _ Nv Ev); [apply spaces_app; auto|exact (ends_not_space seps t' (fun a H => H) Et)]).
               destruct Et as [->|(a & z & -> & Ha)]; [discriminate|]. injection Eq as -> _. exact Ha.
             - right. rewrite Er, str_app_assoc in Ev.
               assert (Same : forall a b x y, spaces a -> spaces b -> ~ begins space_char x -> ~ begins space_char y -> (a ++ x)%string = (b ++ y)%string -> x = y).
               { clear. induction a as [|c a IH]; intros b x y A B X Y E; destruct b as [|d b]; simpl in E; [exact E|subst x; exfalso; apply X; rewrite begins_cons; apply all_cons in B; tauto|subst y; exfalso; apply Y; rewrite begins_cons; apply all_cons in A; tauto|]. injection E as -> E. apply all_cons in A as [_ A]. apply all_cons in B as [_ B]. exact (IH _ _ _ A B X Y E). }
               assert (Eq : (String e vr ++ t)%string = String d v) by (refine (Same _ _ _ _ Wr W' _ Nv Ev); simpl append; rewrite begins_cons in *; exact Nvr). simpl in Eq. injection Eq as -> <-.
               assert (Prev : forall x0 f z, r = (x0 ++ String f z)%string -> digit_char f -> exists g, word_char g /\ exists x1, (String "-" x0)%string = (x1 ++ String g "")%string).
               { intros x0 f z Ez Hf. destruct (Dg (String "-" x0) f z) as (x' & g & Ex & Hg); [rewrite E, Ez; reflexivity|exact Hf|]. exists g. split; [exact Hg|]. exists x'. exact Ex. }
               split; [apply (Al wr d vr Er)|]. split.
               + apply (bool_false _ _ (is_digit_iff d)). intros Xd. destruct (Prev wr d vr Er Xd) as (g & Hg & x1 & Ex1). destruct wr as [|f wr]; [apply (last_unique "" "-") in Ex1; subst g; apply is_ident_iff in Hg; discriminate|].
                 destruct (split_at (String.length wr) (String f wr)) as (y & z & Ew & Lz); [simpl; lia|]. assert (Z : exists h, z = String h "").
                 { assert (Lw : String.length (String f wr) = String.length y + String.length z) by (rewrite Ew; apply str_length_app). simpl in Lw. destruct z as [|h [|g0 z]]; simpl in Lw; try lia. eauto. }
                 destruct Z as [h ->]. rewrite Ew in Ex1. change (String "-" (y ++ String h "")) with (String "-" y ++ String h "")%string in Ex1. apply last_unique in Ex1. subst h. apply (stop_not_word g); [|exact Hg]. apply stop_intro. left. exact (Wr y g "" Ew).
               + intros [-> Xv]. revert Xv. apply not_begins_app; [|intros (a & z & -> & Ha); apply TW; rewrite begins_cons; exact (digit_word a Ha)]. intros (f & z & -> & Hf). destruct (Prev (wr ++ ".")%string f z) as (g & Hg & x1 & Ex1); [rewrite Er, str_app_assoc; reflexivity|exact Hf|]. change (String "-" (wr ++ ".")) with (String "-" wr ++ String "." "")%string in Ex1. apply last_unique in Ex1. subst g. apply is_ident_iff in Hg. discriminate. }
           assert (Tk2 : exists tok, token_at true (String d v) = Some (tok, if is_letter d then S (span is_ident v) else 1) /\ tok <> TInt /\ tok <> TFloat).
           { destruct Hd as [Hs|(Hb & Hdg & Hdot)].
             - pose proof (sep_plain d Hs) as (Pd & _). pose proof Pd as Pd'. unfold plain_token in Pd'. rewrite negb_true_iff, !orb_false_iff in Pd'. destruct Pd' as ((((Q1 & _) & _) & _) & _). rewrite Q1. exists (TChar d). split; [exact (token_char true d v Pd)|split; discriminate].
             - destruct (is_letter d) eqn:Ld; [exists TIdent; split; [unfold token_at; rewrite Ld; reflexivity|split; discriminate]|]. exists (TChar d). split; [exact (plain_bare d v Hb Ld Hdg Hdot)|split; discriminate]. }
           destruct Tk2 as (tok & Tk2 & K1 & K2). set (m := if is_letter d then S (span is_ident v) else 1) in *.
           assert (Lm : m <= String.length (String d v)) by (unfold m; destruct (is_letter d); simpl; [pose proof (span_le is_ident v); lia|lia]). destruct (split_at m _ Lm) as (k & v' & Ek & Lk).
           destruct (at_scan (w ++ String "-" r ++ t) st' w' k v' tok) as (st2 & E2 & _); [rewrite <- Ek; exact A2|exact W'|rewrite <- Ek; exact Nv|rewrite <- Ek, Lk; exact Tk2|]. rewrite E2. cbn [bind]. destruct tok; try reflexivity; congruence.
      * rewrite (guess_numeric _ st (String c "") (r ++ t) (TChar c) A' N Tk); [reflexivity|]. cbn. apply eqb_false_ne, Nm.
Qed.

Lemma suffix_spaces w' : forall w v t', spaces w' -> spaces w -> ~ begins space_char v -> (w ++ v)%string = (w' ++ t')%string -> exists w'', t' = (w'' ++ v)%string /\ spaces w''.
Proof.
  induction w' as [|c w' IH]; intros w v t' W' W N E; [exists w; auto|]. apply all_cons in W' as [Hc W']. destruct w as [|d w]; simpl in E; [subst v; exfalso; apply N; rewrite begins_cons; exact Hc|]. injection E as -> E. apply all_cons in W as [_ W]. exact (IH _ _ _ W' W N E).
Qed.
Lemma follow_suffix l t w' t' : (forall a, In a l -> In a seps) -> follow_in l t -> t = (w' ++ t')%string -> spaces w' -> follow_in l t'.
Proof.
  intros L (w & v & -> & W & E) Eq W'. destruct (suffix_spaces w' w v t' W' W (ends_not_space l v L E) Eq) as (w'' & -> & W''). exists w'', v. auto.
Qed.
Lemma follow_scan raw st l t : (forall a, In a l -> In a seps) -> follow_in l t -> at_ raw st t -> exists tok st', scan' st = Ok (tok, st') /\ (forall c, is_chr tok c = true -> In c l).
Proof.
  intros L (w & v & -> & W & [->|(a & y & -> & Ha)]) A.
  - rewrite str_app_nil_r in A. destruct (at_end_scan _ _ _ A W) as (st' & E). exists TEOF, st'. split; [exact E|discriminate].
  - destruct (sep_plain a (L a Ha)) as (P & N & _). destruct (at_char _ _ _ _ _ A W P N) as (st' & E & _). exists (TChar a), st'. split; [exact E|]. cbn. intros c H. apply Ascii.eqb_eq in H as <-. exact Ha.
Qed.
Lemma calm_app_nc r t : calm r -> follow_nc t -> follow_nc (r ++ t).
Proof.
  intros (x & y & -> & X & Y) F. induction x as [|a x IH].
  - destruct Y as [->|(a & z & -> & ->)]; [exact F|]. simpl append. apply follow_char. cbn. auto.
  - apply all_cons in X as [[Ha| ->] X]; [|simpl append; apply follow_char; cbn; auto]. change ((String a x ++ y) ++ t)%string with (String a "" ++ ((x ++ y) ++ t))%string. apply follow_spaces; [apply all_cons; split; [exact Ha|apply spaces_nil]|exact (IH X)].
Qed.
Definition first_ok (s : string) : Prop := exists c r, s = String c r /\ ~ space_char c /\ ~ In c seps.
Lemma first_digit a r : digit_char a -> first_ok (String a r).
Proof.
  intros H. exists a, r. split; [reflexivity|]. split; [apply digit_not_sign, H|]. unfold seps. cbn [In]. unfold digit_char in H. intros X. repeat (destruct X as [<-|X]; [vm_compute in H; lia|]). exact X.
Qed.
Lemma first_char c r : is_blank c = false -> existsb (Ascii.eqb c) seps = false -> first_ok (String c r).
Proof.
  intros B X. exists c, r. split; [reflexivity|]. split; [apply (bool_false _ _ (is_blank_iff c)), B|]. intros I. assert (Y : existsb (Ascii.eqb c) seps = true) by (apply existsb_exists; exists c; split; [exact I|apply Ascii.eqb_refl]). congruence.
Qed.
Lemma first_integer s z t : integer s z -> first_ok (s ++ t).
Proof. intros [N|(t0 & y & -> & N & _)]; [destruct (natural_first _ _ N) as (a & r & -> & Ha); exact (first_digit a (r ++ t) Ha)|]. simpl append. apply first_char; reflexivity. Qed.
Lemma first_text s v b t : text s v b -> first_ok (s ++ t).
Proof.
  intros [s0 v0 Q|s0 Al|s0 B]; [simpl append; apply first_char; reflexivity|simpl append; apply first_char; reflexivity|]. destruct (bare_parts _ B) as (a & r & -> & N1 & _ & [Hb _] & _). exists a, (r ++ t)%string. split; [reflexivity|]. split; [exact N1|]. unfold seps. cbn [In] in *. tauto.
Qed.
Lemma first_decimal s t : decimal s -> first_ok (s ++ t).
Proof. intros [[z I]|(t1 & u & z & -> & I & _)]; [exact (first_integer _ _ _ I)|]. rewrite str_app_assoc. exact (first_integer _ _ _ I). Qed.
Lemma first_guessed s a t : guessed s a -> first_ok (s ++ t).
Proof.
  intros [s0 z I|s0 t1 u z E I U U0|s0 E|s0 v k Tx Wd|w W|w k kv kb w1 w2 s0 a0 r W Tx Hk W1 W2 G0 C|w s0 a0 r W G0 C].
  - exact (first_integer _ _ _ I).
  - subst s0. rewrite str_app_assoc. exact (first_integer _ _ _ I).
  - destruct E as [-> | ->]; apply first_char; reflexivity.
  - exact (first_text _ _ _ _ Tx).
  - apply first_char; reflexivity.
  - apply first_char; reflexivity.
  - apply first_char; reflexivity.
Qed.
Lemma first_not_space s : first_ok s -> ~ begins space_char s.
Proof. intros (c & r & -> & N & _). rewrite begins_cons. exact N. Qed.
Lemma first_head s : first_ok s -> exists c, head_ s = Some c /\ forall d, In d seps -> Ascii.eqb c d = false.
Proof. intros (c & r & -> & _ & N). exists c. split; [reflexivity|]. intros d H. apply eqb_false_ne. intros ->. exact (N H). Qed.

Lemma guess_brace n w r v t' : spaces w -> r = (v ++ t')%string -> spaces v -> ~ begins space_char t' ->
  exists st3, at_ (w ++ String "{" r) st3 t' /\ guess (S n) (w ++ String "{" r) =
    do first <- guess n t';
    match first with
    | AStr => do (_, s4) <- parse_string (w ++ String "{" r) st3; do (t, _) <- scan' s4;
        if is_chr t ":" || match head_ t' with Some c2 => Ascii.eqb c2 "}" | None => false end then Ok (AMap AAny) else Ok (ASlice first)
    | _ => Ok (ASlice first)
    end.
Proof.
  intros W -> V N. set (sub := (w ++ String "{" (v ++ t'))%string). assert (A : at_ sub (new_scanner sub) (w ++ String "{" (v ++ t'))) by apply at_start.
  destruct (at_peek sub _ w _ A W) as (s1 & P & A1); [rewrite begins_cons; unfold space_char, codes; vm_compute; intuition discriminate|].
  destruct (at_char sub s1 "" "{" (v ++ t') A1 spaces_nil eq_refl) as (s2 & E2 & A2); [unfold space_char, codes; vm_compute; intuition discriminate|].
  destruct (at_peek sub s2 v t' A2 V N) as (s3 & P3 & A3). exists s3. split; [exact A3|]. rewrite guess_unfold, P. cbn [head_].
  change (Ascii.eqb "{" dquote || Nat.eqb (code "{") 39 || Ascii.eqb "{" "`") with false. change (Ascii.eqb "{" "{") with true. cbv iota. rewrite E2. cbn [bind]. rewrite P3. destruct A3 as (_ & -> & _). reflexivity.
Qed.
Lemma guess_ok s a : guessed s a -> forall n w t, follow_nc t -> spaces w -> guess n (w ++ s ++ t) = NoFuel \/ guess n (w ++ s ++ t) = Ok a.
Proof.
  induction 1 as [s z I|s t1 u z E I U U0|s E|s v k Tx Wd|w1 W1|w0 k kv kb w1 w2 s a r W0 Tx Hk W1 W2 G IH C|w1 s a r W1 G IH C]; intros n w t F W; (destruct n as [|n]; [left; reflexivity|]); pose proof (follow_stops _ (follow_nc_follow _ F)) as T.
  - right. exact (guess_number n w s z t I T W).
  - right. subst s. exact (guess_float n w t1 u z t I U U0 T W).
  - right. destruct E as [-> | ->]; [apply (guess_ident n w "t" "rue")|apply (guess_ident n w "f" "alse")]; try (vm_compute; lia); try exact W; try (apply stops_not_word, T); repeat (apply all_cons; split; [left; vm_compute; lia|]); apply all_nil.
  - right. exact (guess_text n w s v k t Tx Wd (follow_nc_follow _ F) W).
  - assert (N : ~ begins space_char (String "}" t)) by (rewrite begins_cons; unfold space_char, codes; vm_compute; intuition discriminate).
    destruct (guess_brace n w ((w1 ++ "}") ++ t) w1 (String "}" t) W) as (st3 & A3 & Eg); [rewrite str_app_assoc; reflexivity|exact W1|exact N|].
    change (w ++ ("{" ++ w1 ++ "}") ++ t)%string with (w ++ String "{" ((w1 ++ "}") ++ t))%string. rewrite Eg. destruct n as [|n]; [left; reflexivity|]. right.
    destruct (guess_other n (String "}" t) "" "}" t eq_refl spaces_nil) as (st4 & A4 & ->); [rewrite begins_cons in N; exact N|reflexivity|].
    rewrite (guess_numeric _ st4 "}" t (TChar "}") A4 N eq_refl eq_refl). cbn [bind].
    destruct A3 as (B1 & B2 & B3). destruct st3 as [nb p rr o x]. cbn [nums rest pos] in *. subst nb rr. unfold parse_string. cbn [nums]. unfold with_nums at 1. cbn [pos rest off txt]. unfold scan' at 1.
    pose proof (scan_char false p "" "}" t o x spaces_nil eq_refl) as Sc. simpl append in Sc. rewrite Sc by (rewrite begins_cons in N; exact N). cbn [of_option bind rest]. destruct F as (wt & t' & -> & Wt & Et).
    assert (Au : all_chars bare_char wt).
    { eapply all_impl; [|exact Wt]. intros c Hc. apply space_in in Hc. split; [|intros ->; cbn in Hc; intuition discriminate]. cbn [In] in *. intros X. repeat (destruct X as [<-|X]; [intuition discriminate|]). exact X. }
    assert (Es : ends_with seps t') by (destruct Et as [->|(c & y & -> & Hc)]; [left; reflexivity|right; rewrite begins_cons; exact (nc_seps c Hc)]).
    destruct (bare_run (S (String.length (wt ++ t'))) wt t' (p + String.length "" + 1) (p + String.length "") "}" Au Es (Nat.lt_succ_diag_r _)) as (o' & x' & El & _). rewrite El. cbn [bind]. unfold with_nums. cbn [pos rest off txt nums].
    assert (A5 : at_ (w ++ String "{" ((w1 ++ "}") ++ wt ++ t')) (mkScanner true (p + String.length "" + 1 + String.length wt) t' o' x') t').
    { split; [reflexivity|]. split; [reflexivity|]. cbn [pos]. apply drop_more. apply (drop_more _ (p + 0) "}"). rewrite Nat.add_0_r. exact B3. }
    destruct (follow_scan _ _ [","; ";"; "}"]%char t' nc_seps (ltac:(exists "", t'; split; [reflexivity|]; split; [apply spaces_nil|exact Et])) A5) as (tok & st' & E & _). rewrite E. cbn [bind]. rewrite orb_true_r. reflexivity.
  - assert (Fk : follow (w1 ++ ":" ++ w2 ++ s ++ r ++ t)) by (apply follow_spaces; [exact W1|]; simpl append; apply follow_char; cbn; auto).
    pose proof (first_text k kv kb (w1 ++ ":" ++ w2 ++ s ++ r ++ t) Tx) as Fi. set (tl := (k ++ w1 ++ ":" ++ w2 ++ s ++ r ++ t)%string) in *.
    destruct (guess_brace n w (w0 ++ tl) w0 tl W eq_refl W0 (first_not_space _ Fi)) as (st3 & A3 & Eg).
    replace (w ++ ("{" ++ w0 ++ k ++ w1 ++ ":" ++ w2 ++ s ++ r) ++ t)%string with (w ++ String "{" (w0 ++ tl))%string by (unfold tl; simpl; rewrite ?str_app_assoc; simpl; rewrite ?str_app_assoc; reflexivity).
    rewrite Eg. destruct n as [|n]; [left; reflexivity|]. right. unfold tl at 1. change (k ++ w1 ++ ":" ++ w2 ++ s ++ r ++ t)%string with ("" ++ k ++ w1 ++ ":" ++ w2 ++ s ++ r ++ t)%string.
    rewrite (guess_text n "" k kv kb _ Tx (fun X => proj1 (Hk X)) Fk spaces_nil). cbn [bind].
    destruct (parse_text _ st3 "" k _ kv kb Tx A3 spaces_nil Fk) as (v' & s4 & w' & t' & Ep & A4 & Et & W' & _). rewrite Ep. cbn [bind].
    destruct (suffix_spaces w' w1 (":" ++ w2 ++ s ++ r ++ t) t' W' W1) as (w'' & -> & W''); [simpl append; rewrite begins_cons; unfold space_char, codes; vm_compute; intuition discriminate|exact Et|].
    destruct (at_char _ s4 w'' ":" _ A4 W'' eq_refl) as (s5 & E5 & _); [unfold space_char, codes; vm_compute; intuition discriminate|]. rewrite E5. reflexivity.
  - pose proof (first_guessed s a (r ++ t) G) as Fi. pose proof (calm_app_nc r t C F) as Fr.
    destruct (guess_brace n w (w1 ++ s ++ r ++ t) w1 (s ++ r ++ t) W eq_refl W1 (first_not_space _ Fi)) as (st3 & A3 & Eg).
    replace (w ++ ("{" ++ w1 ++ s ++ r) ++ t)%string with (w ++ String "{" (w1 ++ s ++ r ++ t))%string by (simpl; rewrite ?str_app_assoc; reflexivity).
    rewrite Eg. destruct (IH n "" (r ++ t)%string Fr spaces_nil) as [E|E]; simpl append in E; rewrite E; [left; reflexivity|]. right. cbn [bind].
    destruct a; try reflexivity. inversion G as [| |? Ez|s0 v k Tx Wd| | |]; subst; [].
    destruct (parse_text _ st3 "" s _ v k Tx A3 spaces_nil (follow_nc_follow _ Fr)) as (v' & s4 & w' & t' & Ep & A4 & Et & W' & _). rewrite Ep. cbn [bind].
    pose proof (follow_suffix _ _ w' t' nc_seps Fr Et W') as Ft. destruct (follow_scan _ _ _ t' nc_seps Ft A4) as (tok & st' & E5 & Hc). rewrite E5. cbn [bind].
    destruct (first_head _ Fi) as (c & -> & Hn). rewrite (Hn "}"%char) by (cbn; auto). rewrite orb_false_r. destruct (is_chr tok ":") eqn:X; [|reflexivity]. apply Hc in X. cbn in X. intuition discriminate.
Qed.
Lemma guess_type_single s a w t : guessed s a -> calm t -> spaces w -> guess_type (w ++ s ++ t) true = Ok a.
Proof.
  intros G C W. unfold guess_type. destruct (guess_ok s a G (S (String.length (w ++ s ++ t))) w t (calm_follow _ C) W) as [E|E]; [exfalso; revert E; apply guess_fuel; lia|]. rewrite E. cbn [bind]. unfold new_scanner. rewrite (look_guessed s a G t C w _ 0 0 "" W (Nat.lt_succ_diag_r _)). reflexivity.
Qed.
Lemma guess_type_item s a w t : guessed s a -> follow_nc t -> spaces w -> guess_type (w ++ s ++ t) false = Ok a.
Proof.
  intros G C W. unfold guess_type. destruct (guess_ok s a G (S (String.length (w ++ s ++ t))) w t C W) as [E|E]; [exfalso; revert E; apply guess_fuel; lia|]. rewrite E. reflexivity.
Qed.
Lemma guess_type_many s a w w' r t : guessed s a -> scalar a -> spaces w -> spaces w' -> guess_type (w ++ (s ++ w' ++ ";" ++ r) ++ t) true = Ok (ASlice a).
Proof.
  intros G Sc W W'. rewrite !str_app_assoc. unfold guess_type. assert (F : follow_nc (w' ++ ";" ++ r ++ t)) by (apply follow_spaces; [exact W'|]; simpl append; apply follow_char; cbn; auto).
  destruct (guess_ok s a G (S (String.length (w ++ s ++ w' ++ ";" ++ r ++ t))) w _ F W) as [E|E]; [exfalso; revert E; apply guess_fuel; lia|]. rewrite E. cbn [bind]. unfold new_scanner.
  assert (Lk : look_ok (s ++ w' ++ ";" ++ r ++ t) true) by (apply (look_scalar s a); try assumption; [apply follow_stops, follow_nc_follow, F|apply look_spaces; [exact W'|]; exact (look_stop ";" (r ++ t) (or_intror eq_refl))]).
  rewrite (Lk w _ 0 0 "" W (Nat.lt_succ_diag_r _)). reflexivity.
Qed.
Lemma guessed_makeable s a : guessed s a -> guess_makeable a = true /\ makeable true a = true /\ a <> AAny.
Proof.
  induction 1 as [| | | | | |? ? ? ? ? ? (IH1 & IH2 & IH3) ?]; try (split; [reflexivity|split; [reflexivity|discriminate]]). cbn [guess_makeable makeable]. split; [exact IH2|]. split; [exact IH2|discriminate].
Qed.

(** ** Values *)
Scheme denotes_mut := Minimality for denotes Sort Prop
  with item_mut := Minimality for item Sort Prop
  with items_mut := Minimality for items Sort Prop
  with flat_mut := Minimality for flat Sort Prop
  with legacy_mut := Minimality for legacy Sort Prop
  with pairs_mut := Minimality for pairs Sort Prop.
Combined Scheme values_mut from denotes_mut, item_mut, items_mut, flat_mut, legacy_mut, pairs_mut.

Definition opens_brace (s : string) : Prop := begins (fun a => a = "{"%char) s.
Section Values.
  Variable float_ok : string -> bool.

  Lemma scalar_cases a : scalar a -> a <> AAny /\ (forall b, a <> APtr b) /\ (forall b, a <> ASlice b) /\ (forall b, a <> AMap b).
  Proof. intros [->|[->|[->|[b ->]]]]; repeat split; discriminate. Qed.
  Lemma first_scalar a s v b t : scalar a -> denotes float_ok a s v b -> first_ok (s ++ t) /\ ~ opens_brace (s ++ t).
  Proof.
    intros Sc D. destruct (scalar_cases a Sc) as (S1 & S2 & S3 & S4).
    assert (Dg : forall s0 z u, integer s0 z -> ~ opens_brace (s0 ++ u)).
    { intros s0 z u [N|(t0 & y & -> & N & _)]; [destruct (natural_first _ _ N) as (c & r & -> & Hc); simpl append; unfold opens_brace; rewrite begins_cons; intros ->; unfold digit_char in Hc; vm_compute in Hc; lia|simpl append; unfold opens_brace; rewrite begins_cons; discriminate]. }
    inversion D as [is32 s0 z v0 I I64 As|s0 Dec Fl| | |s0 v0 b0 Tx| | | | | |]; subst; try (exfalso; first [exact (S1 eq_refl)|exact (S2 _ eq_refl)|exact (S3 _ eq_refl)|exact (S4 _ eq_refl)]).
    - split; [exact (first_integer _ _ _ I)|exact (Dg _ _ _ I)].
    - split; [exact (first_decimal _ _ Dec)|]. destruct Dec as [[z I]|(t1 & u & z & -> & I & _)]; [exact (Dg _ _ _ I)|]. rewrite str_app_assoc. exact (Dg _ _ _ I).
    - split; [apply first_char; reflexivity|unfold opens_brace; simpl append; rewrite begins_cons; discriminate].
    - split; [apply first_char; reflexivity|unfold opens_brace; simpl append; rewrite begins_cons; discriminate].
    - split; [exact (first_text _ _ _ _ Tx)|]. destruct (text_first _ _ _ Tx) as (c & r & -> & _ & N & _). unfold opens_brace. simpl append. rewrite begins_cons. exact N.
  Qed.
  Lemma first_flat a s v b t : flat float_ok a s v b -> first_ok (s ++ t) /\ ~ opens_brace (s ++ t).
  Proof. intros [a0 s0 v0 b0 Sc D|a0 s0 v0 b0 Sc _ D]; exact (first_scalar _ _ _ _ t Sc D). Qed.
  Lemma first_legacy a s vs b t : legacy float_ok a s vs b -> first_ok (s ++ t) /\ ~ opens_brace (s ++ t).
  Proof. intros [a0 s0 v b0 F|a0 s0 v b0 w w' rest0 vs0 b' F _ _ _]; [exact (first_flat _ _ _ _ t F)|]. rewrite str_app_assoc. exact (first_flat _ _ _ _ _ F). Qed.
  Lemma first_denotes a s v b t : denotes float_ok a s v b -> first_ok (s ++ t).
  Proof.
    induction 1 as [is32 s z v I I64 As|s Dec Fl| | |s v b Tx|a s v b Na D IH|a w s vs W It|a s vs b L|a w s m W P|s a v b G D IH|s1 a w r vs b Sc G W L].
    - exact (first_integer _ _ _ I).
    - exact (first_decimal _ _ Dec).
    - apply first_char; reflexivity.
    - apply first_char; reflexivity.
    - exact (first_text _ _ _ _ Tx).
    - exact IH.
    - apply first_char; reflexivity.
    - exact (proj1 (first_legacy _ _ _ _ t L)).
    - apply first_char; reflexivity.
    - exact IH.
    - exact (proj1 (first_legacy _ _ _ _ t L)).
  Qed.
  Lemma first_item a s v b t : item float_ok a s v b -> first_ok (s ++ t).
  Proof. intros [a0 s0 v0 b0 _ D|s0 a0 v0 b0 _ D]; exact (first_denotes _ _ _ _ t D). Qed.

  Lemma calm_split t : calm t -> exists w t', t = (w ++ t')%string /\ spaces w /\ ends_with [","; "}"]%char t'.
  Proof.
    intros (x & y & -> & X & Y). induction x as [|a x IH].
    - exists "", y. split; [reflexivity|]. split; [apply spaces_nil|]. destruct Y as [->|(a & r & -> & ->)]; [left; reflexivity|right; rewrite begins_cons; cbn; auto].
    - apply all_cons in X as [[Ha| ->] X]; [destruct (IH X) as (w & t' & E & W & En); exists (String a w), t'; split; [simpl; rewrite E; reflexivity|]; split; [apply all_cons; auto|exact En]|].
      exists "", (String "}" x ++ y)%string. split; [reflexivity|]. split; [apply spaces_nil|]. right. simpl append. rewrite begins_cons. cbn. auto.
  Qed.
  Lemma brace_seps a : In a [","; "}"]%char -> In a seps.
  Proof. unfold seps. cbn. tauto. Qed.
  Lemma end_brace l t : ends_with l t -> at_end (head_ t) l = true.
  Proof. intros [->|(a & y & -> & H)]; [reflexivity|]. cbn. apply existsb_exists. exists a. split; [exact H|apply Ascii.eqb_refl]. Qed.
  Lemma first_not_end l s : (forall a, In a l -> In a seps) -> first_ok s -> at_end (head_ s) l = false.
  Proof.
    intros L F. destruct (first_head s F) as (c & -> & H). cbn. destruct (existsb (Ascii.eqb c) l) eqn:E; [|reflexivity]. apply existsb_exists in E as (d & Hd & E). rewrite (H d (L d Hd)) in E. discriminate.
  Qed.
  Lemma after_space b w c t : after b w -> ~ space_char c -> (b = true -> ~ begins space_char (w ++ String c t)).
  Proof. intros [_ H] N B. rewrite (H B). simpl append. rewrite begins_cons. exact N. Qed.
  Lemma not_sp (c : ascii) : is_blank c = false -> ~ space_char c.
  Proof. intros H. apply (bool_false _ _ (is_blank_iff c)), H. Qed.
  Lemma before_none s : before "" s.
  Proof. split; [apply spaces_nil|reflexivity]. Qed.

  Lemma parse_any n i raw s : parse float_ok (S n) AAny i raw s = do g <- guess_type (rest s) (negb i); if guess_makeable g then parse float_ok n g false raw s else Err.
  Proof. reflexivity. Qed.
  Lemma parse_ptr n b i raw s : parse float_ok (S n) (APtr b) i raw s = do (v, s') <- parse float_ok n b i raw s; Ok (VPtr v, s').
  Proof. reflexivity. Qed.
  Lemma parse_slice n b i raw s : parse float_ok (S n) (ASlice b) i raw s =
    let '(h, s1) := peek_no_space s in
    if match h with Some c => Ascii.eqb c "{" | None => false end then
      do (_, s2) <- scan' s1; do (l, s3) <- parse_items float_ok n b raw s2; do s4 <- expect_chr "}" s3; Ok (VList l, s4)
    else do (l, s2) <- parse_legacy float_ok n b raw s1; Ok (VList l, s2).
  Proof. reflexivity. Qed.
  Lemma parse_map n b i raw s : parse float_ok (S n) (AMap b) i raw s = do s1 <- expect_chr "{" s; do (m, s2) <- parse_pairs float_ok n b raw s1 []; do s3 <- expect_chr "}" s2; Ok (VMap m, s3).
  Proof. reflexivity. Qed.
  Lemma parse_items_eq n b raw s : parse_items float_ok (S n) b raw s =
    let '(h, s1) := peek_no_space s in
    if at_end h ["}"%char] then Ok ([], s1)
    else
      do (v, s2) <- parse float_ok n b true raw s1;
      let '(h2, s3) := peek_no_space s2 in
      if match h2 with Some c => Ascii.eqb c "}" | None => false end then Ok ([v], s3)
      else do s4 <- expect_chr "," s3; do (l, s5) <- parse_items float_ok n b raw s4; Ok (v :: l, s5).
  Proof. reflexivity. Qed.
  Lemma parse_legacy_eq n b raw s : parse_legacy float_ok (S n) b raw s =
    let '(h, s1) := peek_no_space s in
    if at_end h [","%char; "}"%char] then Ok ([], s1)
    else
      do (v, s2) <- parse float_ok n b true raw s1;
      let '(h2, s3) := peek_no_space s2 in
      if at_end h2 [","%char; "}"%char] then Ok ([v], s3)
      else do (_, s4) <- scan' s3; if match h2 with Some c => Ascii.eqb c ";" | None => false end then do (l, s5) <- parse_legacy float_ok n b raw s4; Ok (v :: l, s5) else Err.
  Proof. reflexivity. Qed.
  Lemma parse_pairs_eq n b raw s m : parse_pairs float_ok (S n) b raw s m =
    let '(h, s1) := peek_no_space s in
    if at_end h ["}"%char] then Ok (m, s1)
    else
      do (k, s2) <- parse_string raw s1;
      do s3 <- expect_chr ":" s2;
      do (v, s4) <- parse float_ok n b false raw s3;
      let '(h2, s5) := peek_no_space s4 in
      if match h2 with Some c => Ascii.eqb c "}" | None => false end then Ok (mset String.eqb m k v, s5)
      else do s6 <- expect_chr "," s5; parse_pairs float_ok n b raw s6 (mset String.eqb m k v).
  Proof. reflexivity. Qed.

  Definition reads (r : res (value * scanner)) (raw : string) (v : value) (t : string) : Prop :=
    r = NoFuel \/ exists st' w' t', r = Ok (v, st') /\ t = (w' ++ t')%string /\ spaces w' /\ at_ raw st' t'.
  Definition reads_list {A} (r : res (A * scanner)) (raw : string) (v : A) (t : string) : Prop := r = NoFuel \/ exists st', r = Ok (v, st') /\ at_ raw st' t.

  Definition P_denotes (a : arg) (s : string) (v : value) (b : bool) : Prop := forall n i raw st w t, (i = true -> a <> AAny) -> calm t -> (b = true -> ~ begins space_char t) -> before w s -> at_ raw st (w ++ s ++ t) -> reads (parse float_ok n a i raw st) raw v t.
  Definition P_item (a : arg) (s : string) (v : value) (b : bool) : Prop := forall n raw st t, calm t -> (b = true -> ~ begins space_char t) -> at_ raw st (s ++ t) -> reads (parse float_ok n a true raw st) raw v t.
  Definition P_items (a : arg) (s : string) (vs : list value) : Prop := forall n raw st w t, spaces w -> calm t -> at_ raw st (w ++ s ++ "}" ++ t) -> reads_list (parse_items float_ok n a raw st) raw vs ("}" ++ t).
  Definition P_flat (a : arg) (s : string) (v : value) (b : bool) : Prop := forall n raw st t, follow_nc t -> (b = true -> ~ begins space_char t) -> at_ raw st (s ++ t) -> reads_list (parse float_ok n a true raw st) raw v t.
  Definition P_legacy (a : arg) (s : string) (vs : list value) (b : bool) : Prop := forall n raw st w t, spaces w -> calm t -> (b = true -> ~ begins space_char t) -> at_ raw st (w ++ s ++ t) ->
    parse_legacy float_ok n a raw st = NoFuel \/ exists st' w' t', parse_legacy float_ok n a raw st = Ok (vs, st') /\ t = (w' ++ t')%string /\ spaces w' /\ at_ raw st' t'.
  Definition P_pairs (a : arg) (s : string) (m m' : list (string * value)) : Prop := forall n raw st w t, spaces w -> calm t -> at_ raw st (w ++ s ++ "}" ++ t) -> reads_list (parse_pairs float_ok n a raw st m) raw m' ("}" ++ t).

  Lemma slice_legacy a s vs b : legacy float_ok a s vs b -> P_legacy a s vs b -> forall n i raw st w t, spaces w -> calm t -> (b = true -> ~ begins space_char t) -> at_ raw st (w ++ s ++ t) -> reads (parse float_ok n (ASlice a) i raw st) raw (VList vs) t.
  Proof.
    intros L IH n i raw st w t W C Hb A. destruct n as [|n]; [left; reflexivity|]. destruct (first_legacy _ _ _ _ t L) as [Fi Nb]. destruct (at_peek raw st w (s ++ t) A W (first_not_space _ Fi)) as (s1 & P & A1). rewrite ?parse_slice, ?parse_map, ?parse_ptr. rewrite P.
    assert (Hd : match head_ (s ++ t) with Some c => Ascii.eqb c "{" | None => false end = false).
    { destruct (s ++ t)%string as [|c r]; [reflexivity|]. cbn. apply eqb_false_ne. intros ->. apply Nb. unfold opens_brace. rewrite begins_cons. reflexivity. }
    rewrite Hd. destruct (IH n raw s1 "" t spaces_nil C Hb A1) as [E|(st' & w' & t' & E & Et & W' & A')]; rewrite E; [left; reflexivity|]. right. exists st', w', t'. auto.
  Qed.
  Lemma land_brace raw st w' t' b w t : after b w -> (w ++ "}" ++ t)%string = (w' ++ t')%string -> spaces w' -> at_ raw st t' -> exists w'', t' = (w'' ++ "}" ++ t)%string /\ spaces w''.
  Proof. intros [W _] E W' _. apply (suffix_spaces w' w ("}" ++ t) t' W' W); [simpl append; rewrite begins_cons; apply not_sp; reflexivity|exact E]. Qed.
  Lemma land_char c raw st w' t' b w t : is_blank c = false -> after b w -> (w ++ String c t)%string = (w' ++ t')%string -> spaces w' -> at_ raw st t' -> exists w'', t' = (w'' ++ String c t)%string /\ spaces w''.
  Proof. intros B [W _] E W' _. apply (suffix_spaces w' w (String c t) t' W' W); [rewrite begins_cons; apply not_sp, B|exact E]. Qed.

  Lemma grammar :
    (forall a s v b, denotes float_ok a s v b -> P_denotes a s v b) /\ (forall a s v b, item float_ok a s v b -> P_item a s v b) /\ (forall a s vs, items float_ok a s vs -> P_items a s vs) /\
    (forall a s v b, flat float_ok a s v b -> P_flat a s v b) /\ (forall a s vs b, legacy float_ok a s vs b -> P_legacy a s vs b) /\ (forall a s m m', pairs float_ok a s m m' -> P_pairs a s m m').
  Proof.
    apply (values_mut float_ok P_denotes P_item P_items P_flat P_legacy P_pairs); unfold P_denotes, P_item, P_items, P_flat, P_legacy, P_pairs.
    Ltac scalar_case Sc D := intros n i raw st w t _ C Hb Bf A; (destruct n as [|n]; [left; reflexivity|]);
      destruct (parse_scalar float_ok n _ i raw st w _ t _ _ Sc D (follow_nc_follow _ (calm_follow _ C)) Hb Bf A) as (st' & E & A'); right; exists st', "", t; split; [exact E|]; split; [reflexivity|]; split; [apply spaces_nil|exact A'].
    - intros is32 s z v I I64 As. scalar_case (or_intror (or_intror (or_intror (ex_intro (fun b => AInt is32 = AInt b) is32 eq_refl))) : scalar (AInt is32)) (denotes_int float_ok is32 s z v I I64 As).
    - intros s Dec Fl. scalar_case (or_intror (or_intror (or_introl eq_refl)) : scalar ANum) (denotes_num float_ok s Dec Fl).
    - scalar_case (or_intror (or_introl eq_refl) : scalar ABool) (denotes_true float_ok).
    - scalar_case (or_intror (or_introl eq_refl) : scalar ABool) (denotes_false float_ok).
    - intros s v b Tx. scalar_case (or_introl eq_refl : scalar AStr) (denotes_str float_ok s v b Tx).
    - intros a s v b Na D IH n i raw st w t Hi C Hb Bf A. destruct n as [|n]; [left; reflexivity|]. rewrite ?parse_slice, ?parse_map, ?parse_ptr. destruct (IH n i raw st w t (fun _ => Na) C Hb Bf A) as [E|(st' & w' & t' & E & R)]; rewrite E; [left; reflexivity|]. right. exists st', w', t'. split; [reflexivity|exact R].
    - intros a w s vs W It IH n i raw st w0 t Hi C Hb [W0 _] A. destruct n as [|n]; [left; reflexivity|]. rewrite ?parse_slice, ?parse_map, ?parse_ptr.
      replace (w0 ++ ("{" ++ w ++ s ++ "}") ++ t)%string with (w0 ++ String "{" (w ++ s ++ "}" ++ t))%string in A by (simpl; rewrite ?str_app_assoc; reflexivity).
      destruct (at_peek raw st w0 _ A W0) as (s1 & P & A1); [rewrite begins_cons; apply not_sp; reflexivity|]. rewrite P. cbn [head_]. change (Ascii.eqb "{" "{") with true. cbv iota.
      destruct (at_char raw s1 "" "{" _ A1 spaces_nil eq_refl) as (s2 & E2 & A2); [apply not_sp; reflexivity|]. rewrite E2. cbn [bind].
      destruct (IH n raw s2 w t W C A2) as [E|(s3 & E & A3)]; rewrite E; [left; reflexivity|]. cbn [bind]. destruct (at_expect raw s3 "" "}" t A3 spaces_nil eq_refl) as (s4 & E4 & A4); [apply not_sp; reflexivity|]. rewrite E4. right. exists s4, "", t. split; [reflexivity|]. split; [reflexivity|]. split; [apply spaces_nil|exact A4].
    - intros a s vs b L IH n i raw st w t Hi C Hb [W _] A. exact (slice_legacy a s vs b L IH n i raw st w t W C Hb A).
    - intros a w s m W Pr IH n i raw st w0 t Hi C Hb [W0 _] A. destruct n as [|n]; [left; reflexivity|]. rewrite ?parse_slice, ?parse_map, ?parse_ptr.
      replace (w0 ++ ("{" ++ w ++ s ++ "}") ++ t)%string with (w0 ++ String "{" (w ++ s ++ "}" ++ t))%string in A by (simpl; rewrite ?str_app_assoc; reflexivity).
      destruct (at_expect raw st w0 "{" _ A W0 eq_refl) as (s1 & E1 & A1); [apply not_sp; reflexivity|]. rewrite E1. cbn [bind].
      destruct (IH n raw s1 w t W C A1) as [E|(s3 & E & A3)]; rewrite E; [left; reflexivity|]. cbn [bind]. destruct (at_expect raw s3 "" "}" t A3 spaces_nil eq_refl) as (s4 & E4 & A4); [apply not_sp; reflexivity|]. rewrite E4. right. exists s4, "", t. split; [reflexivity|]. split; [reflexivity|]. split; [apply spaces_nil|exact A4].
    - intros s a v b G D IH n i raw st w t Hi C Hb Bf A. destruct i; [exfalso; exact (Hi eq_refl eq_refl)|]. destruct n as [|n]; [left; reflexivity|]. rewrite parse_any. cbn [negb]. assert (R : rest st = (w ++ s ++ t)%string) by apply A. rewrite R, (guess_type_single s a w t G C (proj1 Bf)). cbn [bind]. destruct (guessed_makeable s a G) as (-> & _ & Na). exact (IH n false raw st w t (fun _ => Na) C Hb Bf A).
    - intros s1 a w r vs b Sc G W L IH n i raw st w0 t Hi C Hb [W0 _] A. destruct i; [exfalso; exact (Hi eq_refl eq_refl)|]. destruct n as [|n]; [left; reflexivity|]. rewrite parse_any. cbn [negb]. assert (R : rest st = (w0 ++ (s1 ++ w ++ ";" ++ r) ++ t)%string) by apply A. rewrite R, (guess_type_many s1 a w0 w r t G Sc W0 W). cbn [bind guess_makeable]. destruct (guessed_makeable s1 a G) as (_ & -> & _). exact (slice_legacy a _ vs b L IH n false raw st w0 t W0 C Hb A).
    - intros a s v b Na D IH n raw st t C Hb A. exact (IH n true raw st "" t (fun _ => Na) C Hb (before_none s) A).
    - intros s a v b G D IH n raw st t C Hb A. destruct n as [|n]; [left; reflexivity|]. rewrite parse_any. cbn [negb]. assert (R : rest st = ("" ++ s ++ t)%string) by apply A. rewrite R, (guess_type_item s a "" t G (calm_follow _ C) spaces_nil). cbn [bind]. destruct (guessed_makeable s a G) as (-> & _ & Na). exact (IH n false raw st "" t (fun _ => Na) C Hb (before_none s) A).
    - intros a n raw st w t W C A. destruct n as [|n]; [left; reflexivity|]. rewrite parse_items_eq. destruct (at_peek raw st w ("}" ++ t) A W) as (s1 & P & A1); [simpl append; rewrite begins_cons; apply not_sp; reflexivity|]. rewrite P. right. exists s1. split; [reflexivity|exact A1].
    - intros a s v b w It IH Af n raw st w0 t W0 C A. destruct n as [|n]; [left; reflexivity|]. rewrite parse_items_eq. rewrite str_app_assoc in A. pose proof (first_item _ _ _ _ (w ++ "}" ++ t) It) as Fi.
      destruct (at_peek raw st w0 _ A W0 (first_not_space _ Fi)) as (s1 & P & A1). rewrite P. rewrite (first_not_end ["}"%char] _ (fun a H => brace_seps a (or_intror H)) Fi).
      assert (C' : calm (w ++ "}" ++ t)) by (apply calm_spaces; [apply Af|apply calm_brace, C]).
      destruct (IH n raw s1 (w ++ "}" ++ t)%string C' (after_space b w "}" t Af (not_sp "}" eq_refl)) A1) as [E|(s2 & w' & t' & E & Et & W' & A2)]; rewrite E; [left; reflexivity|]. cbn [bind].
      destruct (land_char "}" raw s2 w' t' b w t eq_refl Af Et W' A2) as (w'' & -> & W''). destruct (at_peek raw s2 w'' _ A2 W'') as (s3 & P3 & A3); [rewrite begins_cons; apply not_sp; reflexivity|]. rewrite P3. right. exists s3. split; [reflexivity|exact A3].
    - intros a s v b w w' rest0 vs It IH Af Wn Its IH2 n raw st w0 t W0 C A. destruct n as [|n]; [left; reflexivity|]. rewrite parse_items_eq. pose proof (first_item _ _ _ _ (w ++ "," ++ w' ++ rest0 ++ "}" ++ t) It) as Fi.
      replace (w0 ++ (s ++ w ++ "," ++ w' ++ rest0) ++ "}" ++ t)%string with (w0 ++ s ++ w ++ "," ++ w' ++ rest0 ++ "}" ++ t)%string in A by (rewrite !str_app_assoc; reflexivity).
      destruct (at_peek raw st w0 _ A W0 (first_not_space _ Fi)) as (s1 & P & A1). rewrite P. rewrite (first_not_end ["}"%char] _ (fun a H => brace_seps a (or_intror H)) Fi).
      assert (C' : calm (w ++ "," ++ w' ++ rest0 ++ "}" ++ t)) by (apply calm_spaces; [apply Af|apply calm_comma]).
      destruct (IH n raw s1 _ C' (after_space b w "," _ Af (not_sp "," eq_refl)) A1) as [E|(s2 & w1 & t' & E & Et & W1 & A2)]; rewrite E; [left; reflexivity|]. cbn [bind].
      destruct (land_char "," raw s2 w1 t' b w _ eq_refl Af Et W1 A2) as (w'' & -> & W''). destruct (at_peek raw s2 w'' _ A2 W'') as (s3 & P3 & A3); [rewrite begins_cons; apply not_sp; reflexivity|]. rewrite P3. cbn [head_]. change (Ascii.eqb "," "}") with false. cbv iota.
      destruct (at_expect raw s3 "" "," _ A3 spaces_nil eq_refl) as (s4 & E4 & A4); [apply not_sp; reflexivity|]. rewrite E4. cbn [bind].
      destruct (IH2 n raw s4 w' t Wn C A4) as [E5|(s5 & E5 & A5)]; rewrite E5; [left; reflexivity|]. right. exists s5. split; [reflexivity|exact A5].
    - intros a s v b Sc D IH n raw st t F Hb A. destruct n as [|n]; [left; reflexivity|]. right. exact (parse_scalar float_ok n a true raw st "" s t v b Sc D (follow_nc_follow _ F) Hb (before_none s) A).
    - intros a s v b Sc G D IH n raw st t F Hb A. destruct n as [|n]; [left; reflexivity|]. rewrite parse_any. cbn [negb]. assert (R : rest st = ("" ++ s ++ t)%string) by apply A. rewrite R, (guess_type_item s a "" t G F spaces_nil). cbn [bind]. destruct (guessed_makeable s a G) as (-> & _ & Na). destruct n as [|n]; [left; reflexivity|]. right. exact (parse_scalar float_ok n a false raw st "" s t v b Sc D (follow_nc_follow _ F) Hb (before_none s) A).
    - intros a s v b Fl IH n raw st w t W C Hb A. destruct n as [|n]; [left; reflexivity|]. rewrite parse_legacy_eq. destruct (first_flat _ _ _ _ t Fl) as [Fi _].
      destruct (at_peek raw st w _ A W (first_not_space _ Fi)) as (s1 & P & A1). rewrite P, (first_not_end _ _ brace_seps Fi). destruct (IH n raw s1 t (calm_follow _ C) Hb A1) as [E|(s2 & E & A2)]; rewrite E; [left; reflexivity|]. cbn [bind].
      destruct (calm_split t C) as (w' & t' & Et & W' & En). rewrite Et in A2. destruct (at_peek raw s2 w' t' A2 W' (ends_not_space _ _ brace_seps En)) as (s3 & P3 & A3). rewrite P3, (end_brace _ _ En). right. exists s3, w', t'. auto.
    - intros a s v b w w' rest0 vs b' Fl IH Af Wn Lg IH2 n raw st w0 t W0 C Hb A. destruct n as [|n]; [left; reflexivity|]. rewrite parse_legacy_eq. destruct (first_flat _ _ _ _ (w ++ ";" ++ w' ++ rest0 ++ t) Fl) as [Fi _].
      replace (w0 ++ (s ++ w ++ ";" ++ w' ++ rest0) ++ t)%string with (w0 ++ s ++ w ++ ";" ++ w' ++ rest0 ++ t)%string in A by (rewrite !str_app_assoc; reflexivity).
      destruct (at_peek raw st w0 _ A W0 (first_not_space _ Fi)) as (s1 & P & A1). rewrite P, (first_not_end _ _ brace_seps Fi).
      assert (F' : follow_nc (w ++ ";" ++ w' ++ rest0 ++ t)) by (apply follow_spaces; [apply Af|simpl append; apply follow_char; cbn; auto]).
      destruct (IH n raw s1 _ F' (after_space b w ";" _ Af (not_sp ";" eq_refl)) A1) as [E|(s2 & E & A2)]; rewrite E; [left; reflexivity|]. cbn [bind].
      destruct (at_peek raw s2 w (String ";" (w' ++ rest0 ++ t)) A2 (proj1 Af)) as (s3 & P3 & A3); [rewrite begins_cons; apply not_sp; reflexivity|]. rewrite P3. cbn [head_ append]. change (at_end (Some ";"%char) [","; "}"]%char) with false. cbv iota.
      destruct (at_char raw s3 "" ";" _ A3 spaces_nil eq_refl) as (s4 & E4 & A4); [apply not_sp; reflexivity|]. rewrite E4. cbn [bind]. change (Ascii.eqb ";" ";") with true. cbv iota.
      destruct (IH2 n raw s4 w' t Wn C Hb A4) as [E5|(s5 & w5 & t5 & E5 & R)]; rewrite E5; [left; reflexivity|]. right. exists s5, w5, t5. split; [reflexivity|exact R].
    - intros a m n raw st w t W C A. destruct n as [|n]; [left; reflexivity|]. rewrite parse_pairs_eq. destruct (at_peek raw st w ("}" ++ t) A W) as (s1 & P & A1); [simpl append; rewrite begins_cons; apply not_sp; reflexivity|]. rewrite P. right. exists s1. split; [reflexivity|exact A1].
    - intros a k kv kb w1 w2 s v b w m Tx Af1 Bf D IH Af n raw st w0 t W0 C A. destruct n as [|n]; [left; reflexivity|]. rewrite parse_pairs_eq.
      replace (w0 ++ (k ++ w1 ++ ":" ++ w2 ++ s ++ w) ++ "}" ++ t)%string with (w0 ++ k ++ w1 ++ ":" ++ w2 ++ s ++ w ++ "}" ++ t)%string in A by (rewrite !str_app_assoc; simpl; rewrite ?str_app_assoc; reflexivity).
      pose proof (first_text k kv kb (w1 ++ ":" ++ w2 ++ s ++ w ++ "}" ++ t) Tx) as Fi. destruct (at_peek raw st w0 _ A W0 (first_not_space _ Fi)) as (s1 & P & A1). rewrite P, (first_not_end ["}"%char] _ (fun a H => brace_seps a (or_intror H)) Fi).
      assert (Fk : follow (w1 ++ ":" ++ w2 ++ s ++ w ++ "}" ++ t)) by (apply follow_spaces; [apply Af1|simpl append; apply follow_char; cbn; auto]).
      destruct (parse_text raw s1 "" k _ kv kb Tx A1 spaces_nil Fk) as (kv' & s2 & w' & t' & E2 & A2 & Et & W' & Hv). destruct (Hv (after_space kb w1 ":" _ Af1 (not_sp ":" eq_refl))) as [-> ->]. rewrite E2. cbn [bind]. simpl append in Et. subst t'.
      destruct (at_expect raw s2 w1 ":" _ A2 (proj1 Af1) eq_refl) as (s3 & E3 & A3); [apply not_sp; reflexivity|]. rewrite E3. cbn [bind].
      assert (C' : calm (w ++ "}" ++ t)) by (apply calm_spaces; [apply Af|apply calm_brace, C]).
      destruct (IH n false raw s3 w2 _ (fun H => False_ind _ (Bool.diff_false_true H)) C' (after_space b w "}" t Af (not_sp "}" eq_refl)) Bf A3) as [E|(s4 & w' & t' & E & Et & W4 & A4)]; rewrite E; [left; reflexivity|]. cbn [bind].
      destruct (land_char "}" raw s4 w' t' b w t eq_refl Af Et W4 A4) as (w'' & -> & W''). destruct (at_peek raw s4 w'' _ A4 W'') as (s5 & P5 & A5); [rewrite begins_cons; apply not_sp; reflexivity|]. rewrite P5. right. exists s5. split; [reflexivity|exact A5].
    - intros a k kv kb w1 w2 s v b w wn rest0 m m' Tx Af1 Bf D IH Af Wn Pr IH2 n raw st w0 t W0 C A. destruct n as [|n]; [left; reflexivity|]. rewrite parse_pairs_eq.
      replace (w0 ++ (k ++ w1 ++ ":" ++ w2 ++ s ++ w ++ "," ++ wn ++ rest0) ++ "}" ++ t)%string with (w0 ++ k ++ w1 ++ ":" ++ w2 ++ s ++ w ++ "," ++ wn ++ rest0 ++ "}" ++ t)%string in A by (rewrite !str_app_assoc; simpl; rewrite ?str_app_assoc; simpl; rewrite ?str_app_assoc; reflexivity).
      pose proof (first_text k kv kb (w1 ++ ":" ++ w2 ++ s ++ w ++ "," ++ wn ++ rest0 ++ "}" ++ t) Tx) as Fi. destruct (at_peek raw st w0 _ A W0 (first_not_space _ Fi)) as (s1 & P & A1). rewrite P, (first_not_end ["}"%char] _ (fun a H => brace_seps a (or_intror H)) Fi).
      assert (Fk : follow (w1 ++ ":" ++ w2 ++ s ++ w ++ "," ++ wn ++ rest0 ++ "}" ++ t)) by (apply follow_spaces; [apply Af1|simpl append; apply follow_char; cbn; auto]).
      destruct (parse_text raw s1 "" k _ kv kb Tx A1 spaces_nil Fk) as (kv' & s2 & w' & t' & E2 & A2 & Et & W' & Hv). destruct (Hv (after_space kb w1 ":" _ Af1 (not_sp ":" eq_refl))) as [-> ->]. rewrite E2. cbn [bind]. simpl append in Et. subst t'.
      destruct (at_expect raw s2 w1 ":" _ A2 (proj1 Af1) eq_refl) as (s3 & E3 & A3); [apply not_sp; reflexivity|]. rewrite E3. cbn [bind].
      assert (C' : calm (w ++ "," ++ wn ++ rest0 ++ "}" ++ t)) by (apply calm_spaces; [apply Af|apply calm_comma]).
      destruct (IH n false raw s3 w2 _ (fun H => False_ind _ (Bool.diff_false_true H)) C' (after_space b w "," _ Af (not_sp "," eq_refl)) Bf A3) as [E|(s4 & w' & t' & E & Et & W4 & A4)]; rewrite E; [left; reflexivity|]. cbn [bind].
      destruct (land_char "," raw s4 w' t' b w _ eq_refl Af Et W4 A4) as (w'' & -> & W''). destruct (at_peek raw s4 w'' _ A4 W'') as (s5 & P5 & A5); [rewrite begins_cons; apply not_sp; reflexivity|]. rewrite P5. cbn [head_]. change (Ascii.eqb "," "}") with false. cbv iota.
      destruct (at_expect raw s5 "" "," _ A5 spaces_nil eq_refl) as (s6 & E6 & A6); [apply not_sp; reflexivity|]. rewrite E6. cbn [bind].
      exact (IH2 n raw s6 wn t Wn C A6).
  Qed.

  (** An argument followed by the next one or by nothing *)
  Lemma parse_arg_denotes a raw st s v b t : denotes float_ok a s v b -> (t = "" \/ begins (fun c => c = ","%char) t) -> at_ raw st (s ++ t) -> exists st', parse_arg float_ok a raw st = Ok (v, st') /\ at_ raw st' t.
  Proof.
    intros D T A. assert (C : calm t) by (exists "", t; split; [reflexivity|]; split; [apply all_nil|exact T]). assert (N : ~ begins space_char t) by (destruct T as [->|(c & y & -> & ->)]; [apply begins_nil|rewrite begins_cons; apply not_sp; reflexivity]).
    destruct (proj1 grammar a s v b D (fuel a (rest st)) false raw st "" t) as [E|(st' & w' & t' & E & Et & W' & A')]; try assumption; [discriminate|intros _; exact N|apply before_none|exfalso; exact (parse_arg_fuel float_ok a raw st E)|].
    exists st'. split; [exact E|]. destruct w' as [|c w']; [rewrite Et; exact A'|]. exfalso. apply N. rewrite Et. simpl append. rewrite begins_cons. apply all_cons in W'. tauto.
  Qed.
End Values.
