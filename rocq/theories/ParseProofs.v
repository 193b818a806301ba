(** * The parser reads every text of the grammar as its value. *)
From Coq Require Import List String Ascii Bool Arith NArith ZArith Lia.
From Verif Require Import GoLib GoLibFacts ScanModel ParseModel ParseSpec ScanProofs ParseTerm.
Import ListNotations.
Open Scope string_scope.
Open Scope list_scope.

(** ** Where the scanner stands *)
Definition at_ (raw : string) (st : scanner) (u : string) : Prop := nums st = true /\ rest st = u /\ str_drop (pos st) raw = u.
Lemma at_start raw : at_ raw (new_scanner raw) raw.
Proof. repeat split. Qed.
Lemma drop_more raw p u v : str_drop p raw = (u ++ v)%string -> str_drop (p + String.length u) raw = v.
Proof. intros H. rewrite <- str_drop_add, H. apply str_drop_app. Qed.

Lemma at_scan raw st w s t tok : at_ raw st (w ++ s ++ t) -> spaces w -> ~ begins space_char (s ++ t) -> token_at true (s ++ t) = Some (tok, String.length s) ->
  exists st', scan' st = Ok (tok, st') /\ at_ raw st' t /\ txt st' = s.
Proof.
  intros (H1 & H2 & H3) W N T. destruct st as [b p r o x]. cbn [nums rest pos] in *. subst b r. unfold scan'. rewrite (scan_token true p w s t o x tok W N T). eexists. split; [reflexivity|]. split; [|reflexivity].
  split; [reflexivity|]. split; [reflexivity|]. cbn [pos]. apply drop_more. rewrite <- str_drop_add, H3. apply str_drop_app.
Qed.
Lemma at_char raw st w c t : at_ raw st (w ++ String c t) -> spaces w -> plain_token c = true -> ~ space_char c -> exists st', scan' st = Ok (TChar c, st') /\ at_ raw st' t.
Proof.
  intros A W P N. destruct (at_scan raw st w (String c "") t (TChar c) A W) as (st' & E & A' & _); [cbn; rewrite begins_cons; exact N|exact (token_char true c t P)|]. exists st'. auto.
Qed.
Lemma at_expect raw st w c t : at_ raw st (w ++ String c t) -> spaces w -> plain_token c = true -> ~ space_char c -> exists st', expect_chr c st = Ok st' /\ at_ raw st' t.
Proof.
  intros A W P N. destruct (at_char _ _ _ _ _ A W P N) as (st' & E & A'). exists st'. split; [|exact A']. unfold expect_chr. rewrite E. cbn. rewrite Ascii.eqb_refl. reflexivity.
Qed.
Lemma at_end_scan raw st w : at_ raw st w -> spaces w -> exists st', scan' st = Ok (TEOF, st').
Proof.
  intros A W. destruct (at_scan raw st w "" "" TEOF) as (st' & E & _); [rewrite str_app_nil_r; exact A|exact W|exact (begins_nil _)|reflexivity|]. eauto.
Qed.
Definition head_ (s : string) : option ascii := match s with EmptyString => None | String a _ => Some a end.
Lemma at_peek raw st w s : at_ raw st (w ++ s) -> spaces w -> ~ begins space_char s -> exists st', peek_no_space st = (head_ s, st') /\ at_ raw st' s.
Proof.
  intros (H1 & H2 & H3) W N. destruct st as [b p r o x]. cbn [nums rest pos] in *. subst b r. destruct (peek_skip true p w s o x W N) as (x' & E & _). rewrite E. eexists. split; [reflexivity|]. split; [reflexivity|]. split; [reflexivity|]. cbn [pos]. apply drop_more, H3.
Qed.
Lemma spaces_nil : spaces "".
Proof. apply all_nil. Qed.
Lemma spaces_app a b : spaces (a ++ b) <-> spaces a /\ spaces b.
Proof. apply all_app. Qed.

(** ** What may follow a text *)
Definition seps : list ascii := [","; ";"; ":"; "}"]%char.
Definition ends_with (l : list ascii) (t : string) : Prop := t = "" \/ begins (fun a => In a l) t.
Definition follow_in (l : list ascii) (t : string) : Prop := exists w t', t = (w ++ t')%string /\ spaces w /\ ends_with l t'.
Definition follow : string -> Prop := follow_in seps.
Definition follow_nc : string -> Prop := follow_in [","; ";"; "}"]%char.
Lemma sep_plain c : In c seps -> plain_token c = true /\ ~ space_char c /\ is_chr (TChar c) c = true.
Proof. unfold seps. cbn [In]. intros H. repeat (destruct H as [<-|H]; [split; [reflexivity|]; split; [unfold space_char, codes; vm_compute; intuition discriminate|reflexivity]|]). destruct H. Qed.
Lemma ends_not_space l t : (forall a, In a l -> In a seps) -> ends_with l t -> ~ begins space_char t.
Proof. intros L [->|(a & y & -> & H)]; [apply begins_nil|]. rewrite begins_cons. apply sep_plain, L, H. Qed.
Lemma nc_seps a : In a [","; ";"; "}"]%char -> In a seps.
Proof. unfold seps. cbn [In]. tauto. Qed.
Lemma follow_in_weaken l t : (forall a, In a l -> In a seps) -> follow_in l t -> follow t.
Proof. intros L (w & t' & E & W & [->|(a & y & -> & H)]); exists w; eexists; (split; [exact E|]); (split; [exact W|]); [left; reflexivity|right; rewrite begins_cons; auto]. Qed.
Lemma follow_nc_follow t : follow_nc t -> follow t.
Proof. apply follow_in_weaken, nc_seps. Qed.
Lemma follow_stops t : follow t -> stops t.
Proof.
  intros (w & t' & -> & W & E). destruct w as [|a w]; [|right; simpl append; rewrite begins_cons; apply stop_intro; left; apply all_cons in W; tauto]. destruct E as [->|(a & y & -> & H)]; [left; reflexivity|]. right. simpl append. rewrite begins_cons. apply stop_intro. unfold seps in H. cbn [In] in H. right. repeat (destruct H as [<-|H]; [tauto|]). destruct H.
Qed.
Lemma follow_spaces l w t : spaces w -> follow_in l t -> follow_in l (w ++ t).
Proof. intros W (w' & t' & -> & W' & E). exists (w ++ w')%string, t'. rewrite str_app_assoc. split; [reflexivity|]. split; [apply spaces_app; auto|exact E]. Qed.
Lemma follow_char (l : list ascii) c t : In c l -> follow_in l (String c t).
Proof. intros H. exists "", (String c t). split; [reflexivity|]. split; [apply spaces_nil|]. right. rewrite begins_cons. exact H. Qed.
Lemma follow_nil l : follow_in l "".
Proof. exists "", "". split; [reflexivity|]. split; [apply spaces_nil|]. left. reflexivity. Qed.
Lemma calm_follow t : calm t -> follow_nc t.
Proof.
  intros (x & y & -> & X & Y). revert X. induction x as [|a x IH]; intros X.
  - destruct Y as [->|(a & r & -> & ->)]; [apply follow_nil|apply follow_char; cbn; auto].
  - apply all_cons in X as [[Ha| ->] X]; [|apply follow_char; cbn; auto]. change (String a x ++ y)%string with (String a "" ++ (x ++ y))%string. apply follow_spaces; [apply all_cons; split; [exact Ha|apply spaces_nil]|exact (IH X)].
Qed.
Lemma calm_app r t : calm r -> calm t -> calm (r ++ t).
Proof.
  intros (x & y & -> & X & Y) (x' & y' & -> & X' & Y'). destruct Y as [->|(a & z & -> & ->)].
  - exists (x ++ x')%string, y'. rewrite str_app_nil_r, str_app_assoc. split; [reflexivity|]. split; [apply all_app; auto|exact Y'].
  - exists x, (String "," z ++ x' ++ y')%string. rewrite str_app_assoc. split; [reflexivity|]. split; [exact X|]. right. simpl append. rewrite begins_cons. reflexivity.
Qed.
Lemma calm_nil : calm "".
Proof. exists "", "". split; [reflexivity|]. split; [apply all_nil|]. left. reflexivity. Qed.
Lemma calm_comma t : calm (String "," t).
Proof. exists "", (String "," t). split; [reflexivity|]. split; [apply all_nil|]. right. rewrite begins_cons. reflexivity. Qed.
Lemma calm_brace t : calm t -> calm (String "}" t).
Proof. intros H. apply (calm_app "}" t); [|exact H]. exists "}", "". split; [reflexivity|]. split; [apply all_cons; split; [right; reflexivity|apply all_nil]|]. left. reflexivity. Qed.
Lemma calm_spaces w t : spaces w -> calm t -> calm (w ++ t).
Proof. intros W H. apply calm_app; [|exact H]. exists w, "". rewrite str_app_nil_r. split; [reflexivity|]. split; [eapply all_impl; [|exact W]; intros a X; left; exact X|]. left. reflexivity. Qed.

(** ** Strings *)
Definition bare_char (a : ascii) : Prop := ~ In a [","; ";"; ":"; "}"; "`"]%char /\ a <> quote_char.
Lemma bare_char_stop a : bare_char a -> bare_stop (Some a) = false.
Proof. intros [H _]. cbn. rewrite !orb_false_iff. cbn [In] in H. repeat split; apply eqb_false_ne; intros ->; apply H; auto 6. Qed.
Lemma bare_token a r : bare_char a -> exists tok, token_at false (String a r) = Some (tok, if is_letter a then S (span is_ident r) else 1) /\ tok <> TString /\ tok <> TRawString /\ tok <> TEOF.
Proof.
  intros [H Q]. unfold token_at. destruct (is_letter a); [eexists; split; [reflexivity|repeat split; discriminate]|]. destruct (is_digit a); [eexists; split; [reflexivity|repeat split; discriminate]|].
  rewrite (eqb_false_ne a dquote) by exact Q. rewrite (eqb_false_ne a "`") by (intros ->; apply H; cbn; auto 6). rewrite andb_false_r. eexists; split; [reflexivity|repeat split; discriminate].
Qed.
Lemma span_within u t : ~ begins word_char t -> span is_ident (u ++ t) <= String.length u.
Proof.
  intros N. induction u as [|a u IH]; simpl.
  - destruct t as [|b t]; [simpl; lia|]. simpl. destruct (is_ident b) eqn:E; [|lia]. exfalso. apply N, begins_cons, is_ident_iff, E.
  - destruct (is_ident a); lia.
Qed.
Lemma split_at n u : n <= String.length u -> exists x y, u = (x ++ y)%string /\ String.length x = n.
Proof. intros L. exists (str_take n u), (str_drop n u). rewrite str_take_drop. split; [reflexivity|]. rewrite str_take_length. lia. Qed.
Lemma blank_split u : exists w v, u = (w ++ v)%string /\ spaces w /\ ~ begins space_char v.
Proof.
  induction u as [|a u IH]; [exists "", ""; split; [reflexivity|]; split; [apply spaces_nil|apply begins_nil]|]. destruct (is_blank a) eqn:B.
  - destruct IH as (w & v & -> & W & N). exists (String a w), v. split; [reflexivity|]. split; [|exact N]. apply all_cons. split; [apply is_blank_iff, B|exact W].
  - exists "", (String a u). split; [reflexivity|]. split; [apply spaces_nil|]. rewrite begins_cons. apply (bool_false _ _ (is_blank_iff a)), B.
Qed.
Lemma ends_stops l t : (forall a, In a l -> In a seps) -> ends_with l t -> stops t.
Proof. intros L E. apply follow_stops. apply (follow_in_weaken l t L). exists "", t. split; [reflexivity|]. split; [apply spaces_nil|exact E]. Qed.
Lemma bare_run n : forall u t q o x, all_chars bare_char u -> ends_with seps t -> String.length (u ++ t) < n ->
  exists o' x', bare_loop n (mkScanner false q (u ++ t) o x) = Ok (mkScanner false (q + String.length u) t o' x') /\
    ((u = "" -> o + String.length x = q) -> (forall y a, u = (y ++ String a "")%string -> ~ space_char a) -> o' + String.length x' = q + String.length u).
Proof.
  induction n as [|n IH]; intros u t q o x A T L; [lia|].
  destruct (blank_split u) as (w & v & E & W & N). subst u. apply all_app in A as [_ A]. cbn [bare_loop].
  assert (NT : ~ begins space_char (v ++ t)) by (destruct v as [|a v]; [exact (ends_not_space seps t (fun a H => H) T)|simpl append; rewrite begins_cons in *; exact N]).
  rewrite str_app_assoc. destruct (peek_skip false q w (v ++ t) o x W NT) as (x1 & P & X1). rewrite P.
  destruct v as [|a v].
  - assert (B : bare_stop (match ("" ++ t)%string with EmptyString => None | String a _ => Some a end) = true).
    { simpl append. destruct T as [->|(c & r & -> & H)]; [reflexivity|]. unfold seps in H. cbn [In] in H. repeat (destruct H as [<-|H]; [reflexivity|]). destruct H. }
    rewrite B. exists o, x1. rewrite str_app_nil_r. split; [reflexivity|]. intros H1 H2. destruct w as [|c w]; [rewrite X1 by reflexivity; rewrite H1 by reflexivity; simpl; lia|].
    exfalso. destruct (split_at (String.length w) (String c w)) as (y & z & E & Lz); [simpl; lia|]. assert (Z : exists d, z = String d "").
    { assert (Lw : String.length (String c w) = String.length y + String.length z) by (rewrite E; apply str_length_app). simpl in Lw. destruct z as [|d [|e z]]; simpl in Lw; try lia. eauto. }
    destruct Z as [d ->]. apply (H2 y d); [rewrite E; reflexivity|]. exact (W y d "" E).
  - simpl append at 1. cbv iota. apply all_cons in A as [Ha A]. rewrite (bare_char_stop a Ha). destruct (bare_token a (v ++ t) Ha) as (tok & Tk & _).
    set (m := if is_letter a then S (span is_ident (v ++ t)) else 1) in *.
    assert (Lm : m <= String.length (String a v) /\ 1 <= m) by (unfold m; destruct (is_letter a); simpl; [pose proof (span_within v t (stops_not_word _ (ends_stops seps t (fun a H => H) T))); lia|lia]).
    destruct (split_at m (String a v) (proj1 Lm)) as (k & v' & Ek & Lk). unfold scan'.
    assert (Sc : scan (mkScanner false (q + String.length w) (String a v ++ t) o x1) = Some (tok, mkScanner false (q + String.length w + 0 + String.length k) (v' ++ t) (q + String.length w + 0) k)).
    { rewrite Ek, str_app_assoc. apply (scan_token false _ "" k (v' ++ t)); [apply spaces_nil| |]; rewrite <- str_app_assoc, <- Ek; [exact NT|]. rewrite Lk. exact Tk. }
    rewrite Sc. cbn [of_option bind].
    destruct (IH v' t (q + String.length w + 0 + String.length k) (q + String.length w + 0) k) as (o' & x' & El & Eq).
    + assert (AA : all_chars bare_char (k ++ v')) by (rewrite <- Ek; apply all_cons; auto). apply all_app in AA. tauto.
    + exact T.
    + rewrite Ek in L. rewrite !str_length_app in *. lia.
    + exists o', x'. rewrite El. assert (Ln : String.length (w ++ String a v) = String.length w + String.length k + String.length v') by (rewrite Ek, !str_length_app; lia). rewrite Ln. split; [do 2 f_equal; lia|].
      intros _ H2. rewrite Eq; [lia|lia|]. intros y c Ey. apply (H2 (w ++ k ++ y)%string c). rewrite Ek, Ey, !str_app_assoc. reflexivity.
Qed.

Lemma slice_at raw p w s t : str_drop p raw = (w ++ s ++ t)%string -> slice raw (p + String.length w) (p + String.length w + String.length s) = s.
Proof. intros H. unfold slice. rewrite (drop_more raw p w (s ++ t) H). replace (p + String.length w + String.length s - (p + String.length w)) with (String.length s) by lia. apply str_take_app. Qed.

Lemma bare_parts s : bare s -> exists a r, s = String a r /\ ~ space_char a /\ a <> "{"%char /\ bare_char a /\ all_chars bare_char r /\ forall y b, s = (y ++ String b "")%string -> ~ space_char b.
Proof.
  intros (H0 & H1 & H2 & H3). destruct s as [|a r]; [congruence|]. exists a, r. rewrite begins_cons in H2. apply all_cons in H1 as [Ha A]. split; [reflexivity|]. split; [tauto|]. split; [tauto|]. split; [exact Ha|]. split; [exact A|exact H3].
Qed.
Lemma text_first s v b : text s v b -> exists a r, s = String a r /\ ~ space_char a /\ a <> "{"%char /\ a <> "}"%char.
Proof.
  intros [s0 v0 _|s0 _|s0 B].
  - exists quote_char; eexists. split; [reflexivity|]. unfold space_char, codes. vm_compute. intuition discriminate.
  - exists "`"%char; eexists. split; [reflexivity|]. unfold space_char, codes. vm_compute. intuition discriminate.
  - destruct (bare_parts _ B) as (a & r & -> & N1 & N2 & [N3 _] & _). exists a, r. repeat split; auto. intros ->. apply N3. cbn. auto 6.
Qed.
Lemma parse_text raw st w s t v b : text s v b -> at_ raw st (w ++ s ++ t) -> spaces w -> follow t ->
  exists v' st' w' t', parse_string raw st = Ok (v', st') /\ at_ raw st' t' /\ t = (w' ++ t')%string /\ spaces w' /\ ((b = true -> ~ begins space_char t) -> v' = v /\ w' = "").
Proof.
  intros Tx A W F. destruct A as (A1 & A2 & A3). destruct st as [nb p r o x]. cbn [nums rest pos] in *. subst nb r. unfold parse_string. cbn [nums]. unfold with_nums at 1. cbn [pos rest off txt].
  assert (Tok : forall tok s0 v0, token_at false (s0 ++ t) = Some (tok, String.length s0) -> ~ begins space_char (s0 ++ t) -> (tok = TString \/ tok = TRawString) -> unquote s0 = Some v0 -> s = s0 -> v = v0 ->
    exists v' st' w' t', parse_string raw (mkScanner true p (w ++ s ++ t) o x) = Ok (v', st') /\ at_ raw st' t' /\ t = (w' ++ t')%string /\ spaces w' /\ ((b = true -> ~ begins space_char t) -> v' = v /\ w' = "")).
  { intros tok s0 v0 T N O U -> ->. unfold parse_string. cbn [nums]. unfold with_nums at 1. cbn [pos rest off txt]. unfold scan'. rewrite (scan_token false p w s0 t o x tok W N T). cbn [of_option bind txt]. rewrite U.
    exists v0, (mkScanner true (p + String.length w + String.length s0) t (p + String.length w) s0), "", t. split; [destruct O as [-> | ->]; reflexivity|]. split; [split; [reflexivity|]; split; [reflexivity|]; cbn [pos]; apply drop_more; rewrite <- str_drop_add, A3; apply str_drop_app|].
    split; [reflexivity|]. split; [apply spaces_nil|]. intros _. split; reflexivity. }
  destruct Tx as [s0 v0 Q|s0 Al|s0 B].
  - destruct (token_quoted false s0 v0 t Q) as [T U]. refine (Tok TString _ _ T _ (or_introl eq_refl) U eq_refl eq_refl). rewrite str_app_assoc. simpl append. rewrite begins_cons. unfold space_char, codes. vm_compute. intuition discriminate.
  - destruct (token_raw false s0 t Al) as [T U]. refine (Tok TRawString _ _ T _ (or_intror eq_refl) U eq_refl eq_refl). rewrite str_app_assoc. simpl append. rewrite begins_cons. unfold space_char, codes. vm_compute. intuition discriminate.
  - clear Tok. destruct (bare_parts _ B) as (a & r & -> & N1 & _ & Ha & Al & Last).
    destruct (bare_token a (r ++ t) Ha) as (tok & Tk & T1 & T2 & T3). set (m := if is_letter a then S (span is_ident (r ++ t)) else 1) in *.
    assert (Lm : m <= String.length (String a r) /\ 1 <= m) by (unfold m; destruct (is_letter a); simpl; [pose proof (span_within r t (stops_not_word _ (follow_stops _ F))); lia|lia]).
    destruct (split_at m (String a r) (proj1 Lm)) as (k & u & Ek & Lk). rewrite Ek in *. rewrite str_app_assoc in *.
    assert (N : ~ begins space_char (k ++ u ++ t)) by (rewrite <- str_app_assoc, <- Ek; simpl append; rewrite begins_cons; exact N1).
    assert (Tk' : token_at false (k ++ u ++ t) = Some (tok, String.length k)) by (rewrite <- str_app_assoc, <- Ek, Lk; exact Tk).
    unfold scan'. rewrite (scan_token false p w k (u ++ t) o x tok W N Tk'). cbn [of_option bind].
    assert (Au : all_chars bare_char u) by (assert (AA : all_chars bare_char (k ++ u)) by (rewrite <- Ek; apply all_cons; auto); apply all_app in AA; tauto).
    destruct F as (w' & t' & -> & W' & E). cbn [rest off].
    assert (Au' : all_chars bare_char (u ++ w')).
    { apply all_app. split; [exact Au|]. eapply all_impl; [|exact W']. intros c Hc. apply space_in in Hc. split; [|intros ->; cbn in Hc; intuition discriminate]. cbn [In] in *. intros X. repeat (destruct X as [<-|X]; [intuition discriminate|]). exact X. }
    destruct (bare_run (S (String.length ((u ++ w') ++ t'))) (u ++ w') t' (p + String.length w + String.length k) (p + String.length w) k Au' E) as (o' & x' & El & Eq); [lia|].
    rewrite str_app_assoc in El. cbn [pos]. rewrite El. cbn [bind off txt with_nums pos rest].
    exists (slice raw (p + String.length w) (o' + String.length x')), (mkScanner true (p + String.length w + String.length k + String.length (u ++ w')) t' o' x'), w', t'.
    split; [destruct tok; try congruence; reflexivity|]. split; [split; [reflexivity|]; split; [reflexivity|]; cbn [pos]; rewrite str_length_app, Nat.add_assoc; do 3 apply drop_more; apply (drop_more raw p w); exact A3|].
    split; [reflexivity|]. split; [exact W'|]. intros Hb. assert (W0 : w' = "") by (destruct w' as [|c w']; [reflexivity|]; exfalso; apply (Hb eq_refl); simpl append; rewrite begins_cons; apply all_cons in W'; tauto). subst w'. split; [|reflexivity].
    rewrite str_app_nil_r in *. rewrite Eq; [|lia|intros y c Ey; apply (Last (k ++ y)%string c); rewrite Ey, str_app_assoc; reflexivity].
    rewrite <- Nat.add_assoc, <- str_length_app. apply (slice_at raw p w (k ++ u) ("" ++ t')). rewrite A3, str_app_assoc. reflexivity.
Qed.

(** ** Numbers *)
Lemma number_of_app base l a acc : number_of base (l ++ [a]) acc = (number_of base l acc * base + N.of_nat (digit_val a))%N.
Proof. revert acc. induction l as [|b l IH]; intros acc; [reflexivity|]. cbn. apply IH. Qed.
Lemma list_ascii_app s t : list_ascii_of_string (s ++ t) = list_ascii_of_string s ++ list_ascii_of_string t.
Proof. induction s as [|a s IH]; [reflexivity|]. cbn. rewrite IH. reflexivity. Qed.
Lemma digits_are_value s z : digits_are s z -> Z.of_N (number_of 10 (list_ascii_of_string s) 0) = z.
Proof.
  induction 1 as [|ds z a H IH Ha]; [reflexivity|]. rewrite list_ascii_app. cbn [list_ascii_of_string]. rewrite number_of_app. unfold digit_val, code. replace (is_digit a) with true by (symmetry; apply is_digit_iff, Ha). unfold digit_char in Ha. lia.
Qed.
Lemma all_digits_iff s : all_chars digit_char s -> all_digits s = true.
Proof. induction s as [|a s IH]; intros A; [reflexivity|]. apply all_cons in A as [Ha A]. cbn. rewrite (IH A), andb_true_r. apply is_digit_iff, Ha. Qed.
Lemma natural_first s z : natural s z -> exists a r, s = String a r /\ digit_char a.
Proof. intros N. destruct (natural_cases _ _ N) as [->|(a & r & -> & H & _)]; [exists "0"%char, ""; split; [reflexivity|vm_compute; lia]|eauto]. Qed.
Lemma digit_not_sign a : digit_char a -> Ascii.eqb a "-" = false /\ Ascii.eqb a "+" = false /\ ~ space_char a.
Proof.
  unfold digit_char, space_char, codes. intros H. repeat split; [apply eqb_false_ne; intros ->; cbn in H; lia|apply eqb_false_ne; intros ->; cbn in H; lia|cbn [In]; lia].
Qed.
Lemma atoi_natural s z : natural s z -> in_int64 z -> atoi s = Some z.
Proof.
  intros N I. pose proof (natural_digits _ _ N) as D. destruct (natural_first _ _ N) as (a & r & E & Ha). destruct (digit_not_sign a Ha) as (S1 & S2 & _). unfold atoi. rewrite E at 1. rewrite S1, S2. unfold atoi_abs. rewrite E at 1. rewrite (all_digits_iff s D), (digits_are_value s z (proj1 N)). unfold int64.
  destruct I as [I1 I2]. apply Z.leb_le in I1. apply Z.ltb_lt in I2. rewrite I1, I2. reflexivity.
Qed.
Lemma atoi_negative s z : natural s z -> in_int64 (- z) -> atoi ("-" ++ s) = Some (- z)%Z.
Proof.
  intros N I. pose proof (natural_digits _ _ N) as D. destruct (natural_first _ _ N) as (a & r & E & Ha). simpl append. cbn [atoi]. change (Ascii.eqb "-" "-") with true. cbv iota. unfold atoi_abs. rewrite E at 1. rewrite (all_digits_iff s D), (digits_are_value s z (proj1 N)). unfold int64.
  destruct I as [I1 I2]. apply Z.leb_le in I1. apply Z.ltb_lt in I2. rewrite I1, I2. reflexivity.
Qed.
Lemma as_int_to is32 z v : as_int is32 z v -> to_int is32 z = v.
Proof.
  destruct is32; cbn [as_int to_int]; [|auto]. intros ([H1 H2] & k & E). unfold wrap32. assert (M : ((z + 2 ^ 31) mod 2 ^ 32 = v + 2 ^ 31)%Z) by (symmetry; apply (Z.mod_unique_pos (z + 2 ^ 31) (2 ^ 32) (- k)%Z); lia). rewrite M. lia.
Qed.

(** ** Values without parts *)
Section Grammar.
  Variable float_ok : string -> bool.

  Lemma eat_minus_none raw st w s t : at_ raw st (w ++ s ++ t) -> spaces w -> begins digit_char s -> eat_minus st = Ok (false, st).
  Proof.
    intros (_ & A & _) W (a & r & -> & Ha). unfold eat_minus, peek. rewrite A. destruct w as [|c w]; simpl append; cbv iota.
    - rewrite (proj1 (digit_not_sign a Ha)). reflexivity.
    - apply all_cons in W as [Hc _]. apply space_in in Hc. rewrite eqb_false_ne; [reflexivity|]. intros ->. cbn in Hc. intuition discriminate.
  Qed.
  Lemma eat_minus_one raw st t : at_ raw st (String "-" t) -> exists st', eat_minus st = Ok (true, st') /\ at_ raw st' t.
  Proof.
    intros A. destruct (at_char raw st "" "-" t A spaces_nil eq_refl) as (st' & E & A'); [unfold space_char, codes; vm_compute; intuition discriminate|]. exists st'. split; [|exact A'].
    unfold eat_minus, peek. destruct A as (_ & A & _). rewrite A. cbv iota. change (Ascii.eqb "-" "-") with true. cbv iota. rewrite E. reflexivity.
  Qed.
  Lemma digit_begin s a r t : s = String a r -> digit_char a -> ~ begins space_char (s ++ t).
  Proof. intros -> H. simpl append. rewrite begins_cons. apply digit_not_sign, H. Qed.

  Lemma parse_scalar n a i raw st w s t v b : scalar a -> denotes float_ok a s v b -> follow t -> (b = true -> ~ begins space_char t) -> before w s -> at_ raw st (w ++ s ++ t) ->
    exists st', parse float_ok (S n) a i raw st = Ok (v, st') /\ at_ raw st' t.
  Proof.
    intros Sc D F Hb [W Bm] A. pose proof (follow_stops _ F) as T.
    inversion D as [is32 s0 z v0 In64 I64 As|s0 Dec Fl| | |s0 v0 b0 Tx|? ? ? ? ? D'|? ? ? ? ? ?|? ? ? ? ?|? ? ? ? ? ?|? ? ? ? ? ?|? ? ? ? ? ? ? ? ? ?]; subst.
    - destruct In64 as [Nt|(t0 & y & -> & Nt & ->)].
      + destruct (natural_first _ _ Nt) as (c & r & Ec & Hc). cbn [parse]. rewrite (eat_minus_none raw st w s t A W) by (exists c, r; auto). cbn [bind].
        destruct (at_scan raw st w s t TInt A W (digit_begin _ _ _ t Ec Hc) (token_natural _ _ _ Nt T)) as (st' & E & A' & X). rewrite E. cbn [bind]. rewrite X, (atoi_natural _ _ Nt I64). cbn [of_option bind]. rewrite (as_int_to _ _ _ As). eauto.
      + assert (W0 : w = "") by (apply Bm; simpl append; rewrite begins_cons; reflexivity). subst w. cbn [parse]. destruct (eat_minus_one raw st (t0 ++ t) A) as (st1 & E1 & A1). rewrite E1. cbn [bind].
        destruct (natural_first _ _ Nt) as (c & r & Ec & Hc). destruct (at_scan raw st1 "" t0 t TInt A1 spaces_nil (digit_begin _ _ _ t Ec Hc) (token_natural _ _ _ Nt T)) as (st' & E & A' & X). rewrite E. cbn [bind]. rewrite X, (atoi_negative _ _ Nt I64). cbn [of_option bind]. rewrite (as_int_to _ _ _ As). eauto.
    - assert (Pos : forall w0 s0 st0 tok, at_ raw st0 (w0 ++ s0 ++ t) -> spaces w0 -> begins digit_char s0 -> token_at true (s0 ++ t) = Some (tok, String.length s0) -> exists st', scan' st0 = Ok (tok, st') /\ at_ raw st' t /\ txt st' = s0).
      { intros w0 s0 st0 tok A0 W0 (c & r & Ec & Hc) Tk. exact (at_scan raw st0 w0 s0 t tok A0 W0 (digit_begin _ _ _ t Ec Hc) Tk). }
      assert (Go : forall neg s0 tok, (tok = TInt \/ tok = TFloat) -> begins digit_char s0 -> token_at true (s0 ++ t) = Some (tok, String.length s0) -> s = (if neg : bool then "-" ++ s0 else s0)%string -> exists st', parse float_ok (S n) ANum i raw st = Ok (VNum s, st') /\ at_ raw st' t).
      { intros neg s0 tok O Bd Tk Es. destruct neg.
        - assert (W0 : w = "") by (apply Bm; rewrite Es; simpl append; rewrite begins_cons; reflexivity). rewrite Es, W0 in A. cbn [parse]. destruct (eat_minus_one raw st (s0 ++ t) A) as (st1 & E1 & A1). rewrite E1. cbn [bind].
          destruct (Pos "" s0 st1 tok A1 spaces_nil Bd Tk) as (st' & E & A' & X). rewrite E. cbn [bind]. rewrite X, <- Es, Fl. exists st'. split; [destruct O as [-> | ->]; reflexivity|exact A'].
        - rewrite Es in A. cbn [parse]. rewrite (eat_minus_none raw st w s0 t A W Bd). cbn [bind]. destruct (Pos w s0 st tok A W Bd Tk) as (st' & E & A' & X). rewrite E. cbn [bind]. rewrite X, <- Es, Fl. exists st'. split; [destruct O as [-> | ->]; reflexivity|exact A']. }
      assert (Bn : forall s0 z u, natural s0 z -> begins digit_char (s0 ++ u)) by (intros s0 z u N; destruct (natural_first _ _ N) as (c & r & -> & Hc); simpl append; rewrite begins_cons; exact Hc).
      destruct Dec as [[z [Nt|(t0 & y & Es & Nt & _)]]|(t1 & u & z & Es & [Nt|(t0 & y & Et & Nt & _)] & U & U0)].
      + apply (Go false s TInt); [auto| |exact (token_natural _ _ _ Nt T)|reflexivity]. rewrite <- (str_app_nil_r s). exact (Bn _ _ _ Nt).
      + apply (Go true t0 TInt); [auto| |exact (token_natural _ _ _ Nt T)|exact Es]. rewrite <- (str_app_nil_r t0). exact (Bn _ _ _ Nt).
      + apply (Go false (t1 ++ "." ++ u)%string TFloat); [auto|exact (Bn _ _ _ Nt)|exact (token_float _ _ _ _ Nt U U0 T)|exact Es].
      + apply (Go true (t0 ++ "." ++ u)%string TFloat); [auto|exact (Bn _ _ _ Nt)|exact (token_float _ _ _ _ Nt U U0 T)|]. rewrite Es, Et. reflexivity.
    - destruct (at_scan raw st w "true" t TIdent A W) as (st' & E & A' & X); [simpl append; rewrite begins_cons; unfold space_char, codes; vm_compute; intuition discriminate|apply (token_word true "t" "rue"); [vm_compute; lia|repeat (apply all_cons; split; [left; vm_compute; lia|]); apply all_nil|apply stops_not_word, T]|].
      exists st'. cbn [parse]. rewrite E. cbn [bind]. rewrite X. split; [reflexivity|exact A'].
    - destruct (at_scan raw st w "false" t TIdent A W) as (st' & E & A' & X); [simpl append; rewrite begins_cons; unfold space_char, codes; vm_compute; intuition discriminate|apply (token_word true "f" "alse"); [vm_compute; lia|repeat (apply all_cons; split; [left; vm_compute; lia|]); apply all_nil|apply stops_not_word, T]|].
      exists st'. cbn [parse]. rewrite E. cbn [bind]. rewrite X. split; [reflexivity|exact A'].
    - destruct (parse_text raw st w s t v0 b Tx A W F) as (v' & st' & w' & t' & E & A' & Et & _ & Hv). destruct (Hv Hb) as [-> ->]. exists st'. cbn [parse]. rewrite E. cbn [bind]. split; [reflexivity|]. rewrite Et. exact A'.
    - exfalso. destruct Sc as [|[|[|[]]]]; discriminate.
    - exfalso. destruct Sc as [|[|[|[]]]]; discriminate.
    - exfalso. destruct Sc as [|[|[|[]]]]; discriminate.
    - exfalso. destruct Sc as [|[|[|[]]]]; discriminate.
    - exfalso. destruct Sc as [|[|[|[]]]]; discriminate.
    - exfalso. destruct Sc as [|[|[|[]]]]; discriminate.
  Qed.
End Grammar.
