(** * The text of methods and of a file is read as the trees of TextSpec (for C67) *)
From Coq Require Import List String Ascii Bool Arith Lia.
From Verif Require Import GoLib DeepModel TextSpec TextModel CopiesModel TextProofs TextProofs2 TextProofs3.
Import ListNotations.
Open Scope string_scope.
Open Scope nat_scope.
Open Scope list_scope.

(** ** Methods *)
Definition is_func (T : list tok) (f : gfunc) : Prop := exists k, forall n rest, k <= n -> p_func n (T ++ rest) = Some (f, rest).
Definition are_params (P : list tok) (ps : list (string * gexpr)) : Prop := exists k, forall n rest, k <= n -> p_params n (P ++ TOp ")" :: rest) = Some (ps, rest).
Lemma pa_nil : are_params [] [].
Proof. exists 0. reflexivity. Qed.
Lemma pa_one x T t : is_keyword x = false -> is_type T t -> are_params (TId x :: T) [(x, t)].
Proof. intros K (k & H). exists k. intros n rest Hn. unfold p_params. cbn [app expect]. rewrite K, H; [reflexivity|exact Hn|reflexivity]. Qed.
Definition is_result (R : list tok) (r : option gexpr) : Prop :=
  match r with None => R = [] | Some t => is_type R t /\ forall rest, expect "{" tt (R ++ rest) = None end.
Lemma func_of Pr r f Pp ps R t B gs : are_params Pr [r] -> is_keyword f = false -> are_params Pp ps -> is_result R t -> are_stmts B gs ->
  is_func ((TOp "(" :: Pr ++ TOp ")" :: TId f :: TOp "(" :: Pp ++ TOp ")" :: R ++ [TOp "{"]) ++ B ++ [TOp "}"]) (mkFunc r f ps t gs).
Proof.
  intros (k1 & H1) K (k2 & H2) HR HB. destruct (b_close B gs HB) as (k3 & H3). destruct t as [t|].
  - destruct HR as ((k4 & H4) & E). exists (k1 + k2 + k3 + k4). intros n rest Hn. unfold p_func. cbn [app expect String.eqb Ascii.eqb Bool.eqb andthen]. repeat (rewrite <- app_assoc; cbn [app]).
    rewrite H1 by lia. cbn [andthen]. rewrite K. cbn [expect String.eqb Ascii.eqb Bool.eqb andthen]. rewrite H2 by lia. cbn [andthen]. rewrite E. rewrite H4; [|lia|reflexivity]. cbn [expect String.eqb Ascii.eqb Bool.eqb andthen]. rewrite H3 by lia. reflexivity.
  - cbn in HR. subst R. exists (k1 + k2 + k3). intros n rest Hn. unfold p_func. cbn [app expect String.eqb Ascii.eqb Bool.eqb andthen]. repeat (rewrite <- app_assoc; cbn [app]).
    rewrite H1 by lia. cbn [andthen]. rewrite K. cbn [expect String.eqb Ascii.eqb Bool.eqb andthen]. rewrite H2 by lia. cbn [expect String.eqb Ascii.eqb Bool.eqb andthen]. rewrite H3 by lia. reflexivity.
Qed.
Definition are_funcs (T : list tok) (fs : list gfunc) : Prop :=
  exists k, forall n rest l, k <= n -> p_funcs n rest = Some l -> p_funcs (List.length fs + n) (T ++ rest) = Some (fs ++ l).
Lemma fs_nil : are_funcs [] [].
Proof. exists 0. intros n rest l _ H. exact H. Qed.
Lemma fs_one T f : is_func T f -> are_funcs (TId "func" :: T ++ [TSemi]) [f].
Proof. intros (k & H). exists k. intros n rest l Hn E. cbn [List.length plus app p_funcs String.eqb Ascii.eqb Bool.eqb]. rewrite <- app_assoc. rewrite H by lia. cbn [app]. rewrite E. reflexivity. Qed.
Lemma fs_app T fs T' fs' : are_funcs T fs -> are_funcs T' fs' -> are_funcs (T ++ T') (fs ++ fs').
Proof. intros (k & H) (k' & H'). exists (k + k'). intros n rest l Hn E. rewrite app_length, <- !app_assoc, <- Nat.add_assoc. apply H; [lia|]. apply H'; [lia|exact E]. Qed.

Definition writes (ls : list string) (fs : list gfunc) : Prop := exists T, lexes (unlines ls) T /\ are_funcs T fs.
Lemma wt_nil : writes [] [].
Proof. exists []. split; [intros ts; reflexivity|apply fs_nil]. Qed.
Lemma wt_app a fs b fs' : writes a fs -> writes b fs' -> writes (a ++ b) (fs ++ fs').
Proof. intros (T & L & S) (T' & L' & S'). exists (T ++ T'). split; [rewrite unlines_app; now apply lexes_app|now apply fs_app]. Qed.
Lemma wt_skip l : lexes (l ++ newline) [] -> writes [l] [].
Proof. intros L. exists []. split; [exact L|apply fs_nil]. Qed.
Lemma wt_func h H ls gs f : lexes (h ++ newline) (TId "func" :: H) -> says ls gs -> (forall B, are_stmts B gs -> is_func (H ++ B ++ [TOp "}"]) f) -> writes ([h] ++ ls ++ ["}"]) [f].
Proof.
  intros L (B & LB & SB) F. exists (TId "func" :: (H ++ B ++ [TOp "}"]) ++ [TSemi]). split; [|apply fs_one, F, SB].
  assert (E : TId "func" :: (H ++ B ++ [TOp "}"]) ++ [TSemi] = (TId "func" :: H) ++ B ++ [TOp "}"; TSemi]) by (cbn [app]; rewrite <- !app_assoc; reflexivity).
  rewrite E, !unlines_app, !unlines_one. apply lexes_app; [exact L|]. apply lexes_app; [exact LB|exact lexes_close].
Qed.
Lemma blank_line : lexes ("" ++ newline) [].
Proof. intros ts. reflexivity. Qed.

(** ** Comments *)
Lemma scan_line_comment s e ts : all_chars (fun c => negb (Ascii.eqb c nl)) s = true -> scan s (mkL LineComment e ts) = mkL LineComment e ts.
Proof.
  induction s as [|c s IH]; [reflexivity|]. cbn [all_chars scan]. intros H. apply andb_true_iff in H as (N & H). unfold step. cbn [l_mode]. apply negb_true_iff in N. rewrite N. now apply IH.
Qed.
Lemma chars_app p a b : all_chars p (a ++ b) = all_chars p a && all_chars p b.
Proof. induction a as [|c a IH]; [reflexivity|]. cbn. now rewrite IH, andb_assoc. Qed.
Lemma word_not_nl c : word_char c = true -> negb (Ascii.eqb c nl) = true.
Proof. destruct c as [[|] [|] [|] [|] [|] [|] [|] [|]]; vm_compute; try discriminate; reflexivity. Qed.
Lemma chars_weaken (p q : ascii -> bool) s : (forall c, p c = true -> q c = true) -> all_chars p s = true -> all_chars q s = true.
Proof. intros W. induction s as [|c s IH]; [reflexivity|]. cbn. intros H. apply andb_true_iff in H as (A & B). now rewrite (W c A), IH. Qed.
Lemma ident_one_line x : identifier x = true -> all_chars (fun c => negb (Ascii.eqb c nl)) x = true.
Proof.
  intros I. apply ident_inv in I as (c & s & -> & L & W & _). cbn [all_chars]. rewrite (word_not_nl c (letter_word c L)). cbn. exact (chars_weaken _ _ _ word_not_nl W).
Qed.
Lemma line_comment s : all_chars (fun c => negb (Ascii.eqb c nl)) s = true -> lexes (("//" ++ s) ++ newline) [].
Proof. intros H ts. rewrite sapp_assoc, scan_app, scan_app. change (scan "//" (mkL Idle false ts)) with (mkL LineComment false ts). rewrite scan_line_comment by exact H. reflexivity. Qed.

Lemma scan_comment t star ts : (forall a b, t <> (a ++ "*/" ++ b)%string) -> (star = true -> forall s, t <> String "/"%char s) -> exists star', scan t (mkL (Comment star) false ts) = mkL (Comment star') false ts.
Proof.
  revert star. induction t as [|c t IH]; intros star N S; [exists star; reflexivity|]. cbn [scan]. unfold step at 1. cbn [l_mode l_ends l_toks].
  assert (E : star && Ascii.eqb c "/"%char = false).
  { destruct star; [|reflexivity]. cbn. apply Ascii.eqb_neq. intros ->. exact (S eq_refl t eq_refl). }
  rewrite E, andb_false_r. apply IH.
  - intros a b H. apply (N (String c a) b). cbn. now rewrite H.
  - intros Hc s Hs. apply Ascii.eqb_eq in Hc. subst c t. exact (N "" s eq_refl).
Qed.
Lemma comments_scan h : comments h -> forall ts, scan h (mkL Idle false ts) = mkL Idle false ts \/ scan h (mkL Idle false ts) = mkL LineComment false ts.
Proof.
  induction 1 as [|c s Hc _ IH|t s Ht _ IH|t Ht|t s Ht _ IH]; intros ts.
  - now left.
  - cbn [scan]. assert (E : step (mkL Idle false ts) c = mkL Idle false ts) by (cbn in Hc; destruct Hc as [<-|[<-|[<-|[<-|[]]]]]; reflexivity). rewrite E. apply IH.
  - rewrite scan_app, scan_app. change (scan "//" (mkL Idle false ts)) with (mkL LineComment false ts). rewrite scan_line_comment by exact Ht. cbn [scan]. apply IH.
  - rewrite scan_app. change (scan "//" (mkL Idle false ts)) with (mkL LineComment false ts). rewrite scan_line_comment by exact Ht. now right.
  - rewrite !scan_app. change (scan "/*" (mkL Idle false ts)) with (mkL (Comment false) false ts). destruct (scan_comment t false ts Ht ltac:(discriminate)) as (star & ->).
    assert (E : scan "*/" (mkL (Comment star) false ts) = mkL Idle false ts) by (cbn [scan]; unfold step; cbn [l_mode l_ends l_toks]; rewrite andb_false_r; reflexivity). rewrite E. apply IH.
Qed.

(** ** The top of the file and the imports *)
Lemma top_lexes h p : comments h -> identifier p = true -> lexes (top_text h p) [TId "package"; TId p; TSemi].
Proof.
  intros H I ts. unfold top_text. rewrite !scan_app. change (scan newline (scan newline (scan "//go:build !ignore_autogenerated" (mkL Idle false ts)))) with (mkL Idle false ts).
  assert (E : scan newline (scan newline (scan h (mkL Idle false ts))) = mkL Idle false ts) by (destruct (comments_scan h H ts) as [-> | ->]; reflexivity). rewrite E.
  change (scan "package " _) with (mkL Idle false (TId "package" :: ts)). rewrite <- scan_app, <- scan_app. change (newline ++ newline)%string with (String nl (String nl "")). rewrite scan_ident by (exact I || reflexivity). reflexivity.
Qed.
Lemma scan_string p s e ts : all_chars path_char p = true -> scan p (mkL (InString s) e ts) = mkL (InString (s ++ p)) e ts.
Proof.
  revert s. induction p as [|c p IH]; intros s; cbn [all_chars scan].
  - intros _. f_equal. f_equal. induction s as [|x s IH]; [reflexivity|cbn; now rewrite <- IH].
  - intros H. apply andb_true_iff in H as (C & H). unfold path_char in C. apply negb_true_iff in C. apply orb_false_iff in C as (C & C3). apply orb_false_iff in C as (C1 & C2).
    unfold step at 1. cbn [l_mode l_ends l_toks]. rewrite C1, C2, C3. cbn [orb]. rewrite IH by exact H. rewrite sapp_assoc. reflexivity.
Qed.
Definition spec_toks (i : option string * string) : list tok := match fst i with None => [TStr (snd i); TSemi] | Some a => [TId a; TStr (snd i); TSemi] end.
Lemma spec_lexes i : spec_fine i -> lexes (spec_text i ++ newline) (spec_toks i).
Proof.
  intros (P & A) ts. destruct i as ([a|] & p); unfold spec_text, spec_toks; cbn [fst snd] in *.
  - rewrite !sapp_assoc. change (" """ ++ (p ++ ("""" ++ newline)))%string with (String " "%char (String quote (p ++ String quote newline))). rewrite scan_ident by (exact (A a eq_refl) || reflexivity).
    change (scan (String " "%char (String quote (p ++ String quote newline))) (mkL Idle true (TId a :: ts))) with (scan (p ++ String quote newline) (mkL (InString "") true (TId a :: ts))).
    rewrite scan_app, scan_string by exact P. reflexivity.
  - rewrite !sapp_assoc. change (scan ("""" ++ (p ++ ("""" ++ newline))) (mkL Idle false ts)) with (scan (p ++ String quote newline) (mkL (InString "") false ts)). rewrite scan_app, scan_string by exact P. reflexivity.
Qed.
Lemma specs_lex is : Forall spec_fine is -> lexes (join newline (map spec_text is) ++ newline) (flat_map spec_toks is).
Proof.
  induction 1 as [|i is Hi His IH]; [intros ts; reflexivity|]. destruct is as [|j is].
  - cbn [map join flat_map]. rewrite app_nil_r. now apply spec_lexes.
  - change (join newline (map spec_text (i :: j :: is))) with (spec_text i ++ newline ++ join newline (map spec_text (j :: is)))%string. rewrite sapp_assoc, sapp_assoc, <- (sapp_assoc (spec_text i)). cbn [flat_map]. apply lexes_app; [now apply spec_lexes|exact IH].
Qed.
Lemma imports_lex is : Forall spec_fine is -> lexes (imports_text is) (TId "import" :: TOp "(" :: flat_map spec_toks is ++ [TOp ")"; TSemi]).
Proof.
  intros F. unfold imports_text. change (TId "import" :: TOp "(" :: flat_map spec_toks is ++ [TOp ")"; TSemi]) with ([TId "import"; TOp "("] ++ flat_map spec_toks is ++ [TOp ")"; TSemi]).
  rewrite <- (sapp_assoc "import (" newline), <- (sapp_assoc (join newline (map spec_text is)) newline). apply lexes_app; [intros ts; reflexivity|]. apply lexes_app; [now apply specs_lex|intros ts; reflexivity].
Qed.
Lemma imports_parse is rest : Forall spec_fine is -> p_imports (flat_map spec_toks is ++ TOp ")" :: rest) = Some (is, rest).
Proof.
  induction 1 as [|[[a|] p] is (P & A) His IH]; [reflexivity| |]; cbn [flat_map spec_toks fst snd app p_imports].
  - rewrite (ident_key a (A a eq_refl)). rewrite IH. reflexivity.
  - rewrite IH. reflexivity.
Qed.

(** ** A file *)
Lemma sapp_nil s : (s ++ "")%string = s.
Proof. induction s as [|c s IH]; [reflexivity|cbn; now rewrite IH]. Qed.
Lemma concat_lex (mss : list (list string)) (fss : list (list gfunc)) : Forall2 writes mss fss -> exists T, lexes (String.concat "" (map unlines mss)) T /\ are_funcs T (List.concat fss).
Proof.
  induction 1 as [|ls fs mss fss (T & L & F) H IH]; [exists []; split; [intros ts; reflexivity|apply fs_nil]|]. destruct IH as (T' & L' & F'). exists (T ++ T'). split; [|cbn [List.concat]; now apply fs_app].
  destruct mss as [|ms mss].
  - cbn [map String.concat]. rewrite <- (sapp_nil (unlines ls)). now apply lexes_app.
  - change (String.concat "" (map unlines (ls :: ms :: mss))) with (unlines ls ++ "" ++ String.concat "" (map unlines (ms :: mss)))%string. apply lexes_app; [exact L|exact L'].
Qed.
Lemma tokens_of s T : lexes s T -> tokens s = Some T.
Proof. intros L. unfold tokens. rewrite (L []), app_nil_r. set (Z := rev T). change (Some (rev Z) = Some T). unfold Z. now rewrite rev_involutive. Qed.
Lemma file_reads h p is mss fss : comments h -> identifier p = true -> Forall spec_fine is -> Forall2 writes mss fss -> reads (source_text h p is mss) (mkGFile p is (List.concat fss)).
Proof.
  intros H I F W. destruct (concat_lex mss fss W) as (T & L & (k & P)). unfold reads, source_text.
  assert (A := lexes_app _ _ _ _ (top_lexes h p H I) (lexes_app _ _ _ _ (imports_lex is F) L)). exists ([TId "package"; TId p; TSemi] ++ (TId "import" :: TOp "(" :: flat_map spec_toks is ++ [TOp ")"; TSemi]) ++ T). split.
  - exact (tokens_of _ _ A).
  - exists (List.length (List.concat fss) + k + 1). intros n Hn. cbn [app p_file String.eqb Ascii.eqb Bool.eqb]. rewrite (ident_key p I). cbn [negb andb]. rewrite <- app_assoc. cbn [app]. rewrite imports_parse by exact F.
    assert (Q := P (n - List.length (List.concat fss)) [] [] ltac:(lia)). rewrite !app_nil_r in Q. replace (List.length (List.concat fss) + (n - List.length (List.concat fss))) with n in Q by lia. rewrite Q; [reflexivity|]. destruct (n - List.length (List.concat fss)) eqn:E; [lia|reflexivity].
Qed.
