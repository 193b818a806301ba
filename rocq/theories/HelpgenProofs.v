(** * helpgen: proofs about the text of the files *)

From Coq Require Import List String Ascii Bool Arith Lia Sorted Permutation.
From Verif Require Import GoLib GoLibFacts MapFacts ScanModel ParseSpec ScanProofs DocModel HelpModel ManifestModel HelpgenModel HelpgenSpec.
Import ListNotations.
Open Scope string_scope.
Open Scope list_scope.

(** ** Lexing in pieces *)
Fixpoint run (st : lstate) (s : string) : option (list gtok * lstate) :=
  match s with
  | EmptyString => Some ([], st)
  | String a s' =>
      match step st a with
      | Some (ts, st') => match run st' s' with Some (us, st'') => Some (ts ++ us, st'') | None => None end
      | None => None
      end
  end.
Lemma run_app s : forall st t, run st (s ++ t) =
  match run st s with Some (ts, st') => match run st' t with Some (us, st'') => Some (ts ++ us, st'') | None => None end | None => None end.
Proof.
  induction s as [|a s IH]; intros st t; cbn [run append]; [destruct (run st t) as [[? ?]|]; reflexivity|].
  destruct (step st a) as [[ts st']|]; [|reflexivity]. rewrite IH. destruct (run st' s) as [[us st2]|]; [|reflexivity].
  destruct (run st2 t) as [[vs st3]|]; [|reflexivity]. now rewrite app_assoc.
Qed.
Lemma lex_run s : forall st, lex st s = match run st s with Some (ts, st') => option_map (app ts) (finish st') | None => None end.
Proof.
  induction s as [|a s IH]; intros st; cbn [run lex]; [destruct (finish st); reflexivity|].
  destruct (step st a) as [[ts st']|]; [|reflexivity]. rewrite IH. destruct (run st' s) as [[us st2]|]; [|reflexivity].
  destruct (finish st2); cbn; [now rewrite app_assoc|reflexivity].
Qed.

Lemma go_quote_quoted s : quoted (go_quote_body s) s.
Proof.
  induction s as [|a s IH]; cbn [go_quote_body]; [constructor|]. unfold go_quote_one. cbv zeta. pose proof (nat_ascii_bounded a) as Bd.
  set (n := nat_of_ascii a) in *.
  destruct (go_escape n) as [e|] eqn:E.
  - change (ascii_of_nat 92) with backslash_char. apply quoted_escape; [|exact IH]. fold n.
    assert (X : In (n, e) [(7, 97); (8, 98); (12, 102); (10, 110); (13, 114); (9, 116); (11, 118); (34, 34); (92, 92)]).
    { unfold go_escape in E. do 93 (destruct n as [|n]; [try discriminate; injection E as <-; cbn; tauto|]). discriminate. }
    cbn [In] in X. repeat (destruct X as [X|X]; [injection X as <- <-; vm_compute; tauto|]). destruct X.
  - destruct (Nat.ltb n 32 || Nat.eqb n 127) eqn:C.
    + change (ascii_of_nat 92) with backslash_char.
      assert (H : forall k, k < 16 -> hex_value (go_hex k) k).
      { intros k Hk. unfold hex_value, go_hex. destruct (Nat.ltb_spec k 10); rewrite nat_ascii_embedding by lia; lia. }
      apply (quoted_hex _ _ (n / 16) (n mod 16)); [apply H, Nat.div_lt_upper_bound; lia|apply H, Nat.mod_upper_bound; lia|exact (Nat.div_mod n 16 ltac:(lia))|exact IH].
    + apply quoted_char; [|exact IH]. unfold codes. fold n. intros X. cbn [In] in X.
      repeat (destruct X as [X|X]; [rewrite <- X in E; discriminate|]). destruct X.
Qed.

Lemma run_quoted s v : quoted s v -> forall raw, run (InStr raw false) s = Some ([], InStr (raw ++ s) false).
Proof.
  assert (P : forall (x : string) a r, ((x ++ String a "") ++ r)%string = (x ++ String a r)%string) by (intros; rewrite str_app_assoc; reflexivity).
  induction 1 as [|a s v N Q IH|e x s v H Q IH|h l m n x s v Hh Hl Hx Q IH]; intros raw.
  - cbn. now rewrite str_app_nil_r.
  - cbn [run step]. destruct (plain_char a N) as (-> & -> & ->). cbv iota. rewrite IH, P. reflexivity.
  - cbn [run step]. change (Ascii.eqb backslash_char dquote) with false. change (Ascii.eqb backslash_char newline) with false.
    change (Ascii.eqb backslash_char backslash) with true. cbv iota. cbn [run step]. rewrite IH, !P. reflexivity.
  - cbn [run step]. change (Ascii.eqb backslash_char dquote) with false. change (Ascii.eqb backslash_char newline) with false.
    change (Ascii.eqb backslash_char backslash) with true. cbv iota. cbn [run step].
    change (Ascii.eqb "x" dquote) with false. change (Ascii.eqb "x" newline) with false. change (Ascii.eqb "x" backslash) with false.
    assert (X : forall c k, hex_value c k -> Ascii.eqb c dquote = false /\ Ascii.eqb c newline = false /\ Ascii.eqb c backslash = false).
    { intros c k Hc. apply plain_char. unfold codes, hex_value in *. cbv zeta in Hc. cbn [In]. lia. }
    destruct (X _ _ Hh) as (-> & -> & ->). cbv iota. cbn [run step]. destruct (X _ _ Hl) as (-> & -> & ->). cbv iota. rewrite IH, !P. reflexivity.
Qed.
Lemma run_quote e v : run (Between e) (go_quote v) = Some ([Str v], Between true).
Proof.
  unfold go_quote. cbn [append run]. change (step (Between e) (ascii_of_nat 34)) with (Some (@nil gtok, InStr "" false)). cbv iota beta.
  rewrite run_app, (run_quoted _ v (go_quote_quoted v)). cbn [append run step].
  change (Ascii.eqb (ascii_of_nat 34) dquote) with true. cbv iota. rewrite (unquote_quoted _ _ (go_quote_quoted v)). reflexivity.
Qed.
Lemma run_ident r : forall w, (forall x b y, r = (x ++ String b y)%string -> is_ident b = true) -> run (InWord w) r = Some ([], InWord (w ++ r)).
Proof.
  induction r as [|a r IH]; intros w H; [cbn; now rewrite str_app_nil_r|]. cbn [run step]. rewrite (H "" a r eq_refl). cbv iota.
  rewrite IH by (intros x b y E; apply (H (String a x) b y); rewrite E; reflexivity). now rewrite str_app_assoc.
Qed.
Lemma run_word e w : identifier w -> run (Between e) w = Some ([], InWord w).
Proof.
  intros (a & r & -> & Ha & Hr). cbn [run step]. unfold begin.
  assert (L := proj1 (is_letter_iff a) Ha). unfold letter_char in L. cbv zeta in L.
  replace (Ascii.eqb a newline) with false by (symmetry; apply eqb_false_ne; intros ->; vm_compute in L; lia).
  replace (is_blank a) with false.
  2: { symmetry. unfold is_blank, code. rewrite !orb_false_iff, !Nat.eqb_neq. lia. }
  rewrite Ha. cbv iota. rewrite (run_ident r _ Hr). reflexivity.
Qed.

Ltac lit := match goal with |- context [run ?st (String ?a ?s)] => let v := eval vm_compute in (run st (String a s)) in change (run st (String a s)) with v; cbv iota beta end.
Ltac pieces := repeat (rewrite run_app; first [rewrite run_quote | lit]; cbv iota beta).

(** ** The tokens of the generated texts *)
Definition detail_tokens (d : string * string) : list gtok :=
  [Word "Summary"; Sym ":"; Str (fst d); Sym ","; Word "Details"; Sym ":"; Str (snd d); Sym ","].
Definition field_tokens (f : hfield) : list gtok :=
  [Str (hf_name f); Sym ":"; Sym "{"] ++ detail_tokens (godoc_to_details (hf_name f) (hf_doc f)) ++ [Sym "}"; Sym ","].
Definition block_tokens (name category doc : string) (fields : list gtok) : list gtok :=
  [Word "func"; Sym "("; Word name; Sym ")"; Word "Help"; Sym "("; Sym ")"; Sym "*"; Word "markers"; Sym "."; Word "DefinitionHelp"; Sym "{";
   Word "return"; Sym "&"; Word "markers"; Sym "."; Word "DefinitionHelp"; Sym "{"; Word "Category"; Sym ":"; Str category; Sym ",";
   Word "DetailedHelp"; Sym ":"; Word "markers"; Sym "."; Word "DetailedHelp"; Sym "{"] ++ detail_tokens (godoc_to_details name doc) ++
  [Sym "}"; Sym ","; Word "FieldHelp"; Sym ":"; Word "map"; Sym "["; Word "string"; Sym "]"; Word "markers"; Sym "."; Word "DetailedHelp"; Sym "{"] ++
  fields ++ [Sym "}"; Sym ","; Sym "}"; Semi; Sym "}"; Semi].

Lemma run_field f : run (Between false) (field_text f) = Some (field_tokens f, Between false).
Proof.
  unfold field_text, field_tokens. destruct (godoc_to_details (hf_name f) (hf_doc f)) as [s d]. unfold detail_tokens. cbn [fst snd].
  unfold eol. pieces. reflexivity.
Qed.
Lemma run_fields fs : run (Between false) (String.concat "" (map field_text fs)) = Some (flat_map field_tokens fs, Between false).
Proof.
  induction fs as [|f fs IH]; [reflexivity|]. cbn [map flat_map].
  assert (E : String.concat "" (field_text f :: map field_text fs) = (field_text f ++ String.concat "" (map field_text fs))%string).
  { cbn [String.concat]. destruct (map field_text fs); [cbn; now rewrite str_app_nil_r|reflexivity]. }
  rewrite E, run_app, run_field. cbv iota beta. rewrite IH. reflexivity.
Qed.
Lemma run_block name category doc fs : identifier name ->
  run (Between false) (block name category doc (String.concat "" (map field_text fs)) ++ eol) =
  Some (block_tokens name category doc (flat_map field_tokens fs), Between false).
Proof.
  intros I. unfold block, block_tokens. destruct (godoc_to_details name doc) as [s d]. unfold detail_tokens. cbn [fst snd].
  unfold eol. rewrite !str_app_assoc.
  repeat (rewrite run_app; first [rewrite run_quote | rewrite run_fields | rewrite (run_word _ _ I) | lit]; cbv iota beta).
  lit. reflexivity.
Qed.
Definition head_tokens (pkg : string) : list gtok :=
  [Word "package"; Word pkg; Semi; Word "import"; Sym "("; Str "sigs.k8s.io/controller-tools/pkg/markers"; Semi; Sym ")"; Semi].
Lemma run_comments h : comments h -> run (Between false) (h ++ eol) = Some ([], Between false).
Proof.
  unfold comments, tokens. rewrite lex_run, run_app. destruct (run (Between false) h) as [[ts st]|]; [|discriminate]. intros H.
  destruct (finish st) as [us|] eqn:F; [|discriminate]. cbn in H. injection H as H. apply app_eq_nil in H as [-> ->].
  destruct st as [e|w|raw esc|e|e|e star]; try discriminate; cbn in F; destruct e; try discriminate; reflexivity.
Qed.
Lemma run_head pkg h : identifier pkg -> comments h -> run (Between false) (head_text pkg h) = Some (head_tokens pkg, Between false).
Proof.
  intros I C. unfold head_text. rewrite <- (str_app_assoc h eol). pose proof (run_comments h C) as RC. revert RC.
  generalize (h ++ eol)%string as he. intros he RC. unfold eol.
  repeat (rewrite run_app; first [rewrite run_quote | rewrite RC | rewrite (run_word _ _ I) | lit]; cbv iota beta).
  try lit. reflexivity.
Qed.

(** ** Reading them *)
Lemma expr_str n v r : expr (S n) (Str v :: r) = Some (LStr v, r).
Proof. reflexivity. Qed.
Lemma elems_end n r : elems (S n) (Sym "}" :: r) = Some ([], r).
Proof. reflexivity. Qed.
Lemma elems_step n k r v r' es r'' : tok_eqb (Sym "}") k = false -> expr n r = Some (v, Sym "," :: r') -> elems n r' = Some (es, r'') ->
  elems (S n) (k :: Sym ":" :: r) = Some ((k, v) :: es, r'').
Proof.
  intros K E1 E2. assert (N : strip [Sym "}"] (k :: Sym ":" :: r) = None) by (cbn [strip]; now rewrite K).
  cbn [elems]. rewrite N. change (strip [Sym ":"] (Sym ":" :: r)) with (Some r). cbv iota beta. rewrite E1.
  change (strip [Sym ","] (Sym "," :: r')) with (Some r'). cbv iota beta. rewrite E2. reflexivity.
Qed.
Lemma expr_comp n (p : bool) ty r es r' : existsb (fun t => tok_eqb t (Sym "{")) ty = false -> match ty with Str _ :: _ => False | Sym _ :: _ => False | _ => True end ->
  elems n r = Some (es, r') ->
  expr (S n) ((if p then [Sym "&"] else []) ++ ty ++ Sym "{" :: r) = Some (LComp p ty es, r').
Proof.
  intros B H E. assert (U : until_brace (ty ++ Sym "{" :: r) = (ty, Sym "{" :: r)).
  { clear H. induction ty as [|t ty IH]; [reflexivity|]. cbn [existsb] in B. apply orb_false_iff in B as [B1 B2]. cbn [until_brace app]. rewrite B1, (IH B2). reflexivity. }
  assert (S0 : strip [Sym "{"] (Sym "{" :: r) = Some r) by reflexivity.
  destruct p.
  - cbn [app expr]. change (strip [Sym "&"] (Sym "&" :: ty ++ Sym "{" :: r)) with (Some (ty ++ Sym "{" :: r)). cbv iota beta.
    rewrite U. cbv iota beta. rewrite S0, E. reflexivity.
  - cbn [app]. assert (X : strip [Sym "&"] (ty ++ Sym "{" :: r) = None) by (destruct ty as [|[] ty]; try easy; reflexivity).
    cbn [expr]. destruct ty as [|[w|w|w|] ty]; try easy; cbn [app] in *; rewrite X; cbv iota beta; rewrite U; cbv iota beta; rewrite S0, E; reflexivity.
Qed.

Definition detail_lit (d : string * string) : list (gtok * lit) := [(Word "Summary", LStr (fst d)); (Word "Details", LStr (snd d))].
Lemma elems_detail n d r : elems (S (S (S (S n)))) (detail_tokens d ++ Sym "}" :: r) = Some (detail_lit d, r).
Proof.
  unfold detail_tokens, detail_lit. cbn [app]. eapply elems_step; [reflexivity|apply expr_str|].
  eapply elems_step; [reflexivity|apply expr_str|]. apply elems_end.
Qed.
Definition field_lit (f : hfield) : gtok * lit := (Str (hf_name f), LComp false [] (detail_lit (godoc_to_details (hf_name f) (hf_doc f)))).
Lemma elems_fields fs : forall n r, 6 + List.length fs <= n -> elems n (flat_map field_tokens fs ++ Sym "}" :: r) = Some (map field_lit fs, r).
Proof.
  induction fs as [|f fs IH]; intros n r L; cbn [List.length] in L.
  - destruct n; [lia|]. reflexivity.
  - do 6 (destruct n as [|n]; [lia|]). cbn [flat_map map]. unfold field_tokens at 1. cbn [app]. rewrite <- !app_assoc. unfold field_lit at 1.
    apply elems_step with (r' := flat_map field_tokens fs ++ Sym "}" :: r); [reflexivity| |apply IH; lia].
    apply (expr_comp _ false []); [easy|easy|]. rewrite <- ?app_assoc. apply elems_detail.
Qed.

Definition help_of (name category doc : string) (fs : list hfield) : dhelp :=
  let detail_of n d := let '(s, t) := godoc_to_details n d in mkDetail s t in
  mkDHelp (detail_of name doc) category None (map (fun f => (hf_name f, detail_of (hf_name f) (hf_doc f))) fs).
Lemma distinct_strs l : NoDup l -> distinct (map Str l) = true.
Proof.
  induction 1 as [|x l N _ IH]; [reflexivity|]. cbn [map distinct]. rewrite IH, andb_true_r. apply negb_true_iff. unfold mem.
  apply not_true_iff_false. rewrite existsb_exists. intros (t & Ht & E). apply in_map_iff in Ht. destruct Ht as (y & <- & Hy). cbn in E.
  apply String.eqb_eq in E. subst. easy.
Qed.
Lemma map_values_fields fs : map_values (map field_lit fs) = Some (h_fields (help_of "" "" "" fs)).
Proof.
  induction fs as [|f fs IH]; [reflexivity|]. cbn [map map_values]. unfold field_lit at 1. cbn [help_of h_fields map] in *. rewrite IH.
  destruct (godoc_to_details (hf_name f) (hf_doc f)) as [s d]. reflexivity.
Qed.
Lemma method_block name category doc fs n r : NoDup (map hf_name fs) -> 20 + List.length fs <= n ->
  method n (block_tokens name category doc (flat_map field_tokens fs) ++ r) = Some (name, help_of name category doc fs, r).
Proof.
  intros N L. do 10 (destruct n as [|n]; [lia|]). unfold block_tokens. rewrite <- !app_assoc.
  set (v := LComp true definition_type [(Word "Category", LStr category);
    (Word "DetailedHelp", LComp false detailed_type (detail_lit (godoc_to_details name doc)));
    (Word "FieldHelp", LComp false map_type (map field_lit fs))]).
  unfold method. cbn [app].
  match goal with |- context [strip [Word "func"; Sym "("] (_ :: _ :: ?t)] => change (strip [Word "func"; Sym "("] (Word "func" :: Sym "(" :: t)) with (Some t) end.
  cbv iota beta.
  match goal with |- context [strip ?p (Sym ")" :: Word "Help" :: Sym "(" :: Sym ")" :: Sym "*" :: Word "markers" :: Sym "." :: Word "DefinitionHelp" :: Sym "{" :: Word "return" :: ?t)] =>
    change (strip p (Sym ")" :: Word "Help" :: Sym "(" :: Sym ")" :: Sym "*" :: Word "markers" :: Sym "." :: Word "DefinitionHelp" :: Sym "{" :: Word "return" :: t)) with (Some t) end.
  cbv iota beta.
  match goal with |- context [expr ?k ?t] => assert (E : expr k t = Some (v, Semi :: Sym "}" :: Semi :: r)) end.
  { unfold v. apply (expr_comp _ true definition_type); [reflexivity|exact I|]. cbn [app].
    eapply elems_step; [reflexivity|apply expr_str|].
    eapply elems_step; [reflexivity|apply (expr_comp _ false detailed_type); [reflexivity|exact I|]; apply elems_detail|].
    eapply elems_step; [reflexivity| |apply elems_end].
    apply (expr_comp _ false map_type); [reflexivity|exact I|]. apply elems_fields. lia. }
  rewrite E. cbn [strip tok_eqb]. change (Ascii.eqb "}" "}") with true. cbv iota beta. cbn [strip].
  assert (H : help_value v = Some (help_of name category doc fs)).
  { unfold v, help_value. change (same definition_type definition_type) with true. cbn [andb].
    assert (D : distinct (map fst (map field_lit fs)) = true).
    { rewrite map_map. unfold field_lit. cbn [fst]. rewrite <- (map_map hf_name Str). now apply distinct_strs. }
    match goal with |- (if ?c then _ else _) = _ => change c with true end. cbv iota.
    match goal with |- context [str_field ?es "Category"] => change (str_field es "Category") with (Some category);
      change (field es "DetailedHelp") with (Some (LComp false detailed_type (detail_lit (godoc_to_details name doc))));
      change (field es "FieldHelp") with (Some (LComp false map_type (map field_lit fs))) end.
    cbv iota beta. unfold map_value. change (same map_type map_type) with true. rewrite D. cbn [andb]. rewrite map_values_fields.
    unfold help_of. destruct (godoc_to_details name doc). reflexivity. }
  rewrite H. reflexivity.
Qed.

Definition blocks_tokens (l : list (string * string * string * list hfield)) : list gtok :=
  flat_map (fun x => let '(name, category, doc, fs) := x in block_tokens name category doc (flat_map field_tokens fs)) l.
Lemma field_tokens_length fs : List.length fs <= List.length (flat_map field_tokens fs).
Proof. induction fs as [|f fs IH]; [easy|]. cbn [flat_map List.length]. rewrite app_length. unfold field_tokens at 1. rewrite app_length. cbn [List.length]. lia. Qed.
Lemma methods_blocks l : Forall (fun x => let '(_, _, _, fs) := x in NoDup (map hf_name fs)) l ->
  forall n, List.length (blocks_tokens l) < n ->
  methods n (blocks_tokens l) = Some (map (fun x => let '(name, category, doc, fs) := x in (name, help_of name category doc fs)) l).
Proof.
  induction 1 as [|[[[name category] doc] fs] l N _ IH]; intros n L; (destruct n as [|n]; [lia|]); [reflexivity|].
  unfold blocks_tokens in L. cbn [flat_map] in L. rewrite app_length in L.
  assert (B : 20 + List.length fs + 1 <= List.length (block_tokens name category doc (flat_map field_tokens fs))).
  { unfold block_tokens. rewrite !app_length. cbn [List.length]. pose proof (field_tokens_length fs). lia. }
  unfold blocks_tokens. cbn [flat_map map methods].
  destruct (block_tokens name category doc (flat_map field_tokens fs) ++ _) as [|t ts] eqn:T; [discriminate|]. rewrite <- T.
  rewrite method_block by (try easy; lia). fold (blocks_tokens l) in *. rewrite IH by lia. reflexivity.
Qed.
