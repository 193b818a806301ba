(** * C57: the Help methods that helpgen writes say what the godoc says *)

From Coq Require Import List String Ascii Bool Arith Lia Sorted Permutation.
From Verif Require Import GoLib GoLibFacts MapFacts ScanModel DocModel ParseModel HelpModel ManifestModel ManifestSpec ManifestProofs HelpgenModel HelpgenSpec HelpgenProofs HelpgenProofs2.
Import ListNotations.
Open Scope string_scope.
Open Scope list_scope.

Definition is_marked (i : hinfo) : bool := match hi_markers i with [] => false | _ => true end.
Definition marked (infos : list hinfo) : list hinfo := filter is_marked infos.
(** The help for a type *)
Definition documented (i : hinfo) (h : dhelp) : Prop :=
  (exists others, hi_markers i = h_category h :: others) /\ h_deprecated h = None /\ godoc (hi_name i) (hi_doc i) (h_detail h) /\
  Forall2 (fun f kd => fst kd = hf_name f /\ godoc (hf_name f) (hf_doc f) (snd kd)) (hi_fields i) (h_fields h).
(** Type declarations that Go accepts, and at most one embedded field *)
Definition declared (infos : list hinfo) : Prop :=
  NoDup (map hi_name (marked infos)) /\
  forall i, In i (marked infos) -> identifier (hi_name i) /\ NoDup (map hf_name (hi_fields i)) /\
    forall f, In f (hi_fields i) -> hf_name f = "" \/ identifier (hf_name f).
(** [text] is a file of the package with a Help method for each type, in order of names *)
Definition help_file (pkg : string) (infos : list hinfo) (text : string) : Prop :=
  exists is l, Permutation is (marked infos) /\ StronglySorted str_le (map hi_name is) /\
  go_file text = Some (pkg, l) /\ Forall2 (fun i th => fst th = hi_name i /\ documented i (snd th)) is l.

Definition entry (i : hinfo) : string * string * string * list hfield := (hi_name i, match hi_markers i with c :: _ => c | [] => "" end, hi_doc i, hi_fields i).
Definition text_of (i : hinfo) : string :=
  block (hi_name i) (match hi_markers i with c :: _ => c | [] => "" end) (hi_doc i) (String.concat "" (map field_text (hi_fields i))).

Lemma mset_fresh (m : list (string * string)) k v : ~ In k (map fst m) -> mset String.eqb m k v = m ++ [(k, v)].
Proof.
  induction m as [|[k' v'] m IH]; intros H; [reflexivity|]. cbn [mset]. cbn in H. destruct (String.eqb_spec k k') as [->|]; [tauto|].
  rewrite IH by tauto. reflexivity.
Qed.
Lemma by_type_all infos : forall m, NoDup (map fst m ++ map hi_name (marked infos)) ->
  fold_left add_type infos m = m ++ map (fun i => (hi_name i, text_of i)) (marked infos).
Proof.
  induction infos as [|i infos IH]; intros m N; [cbn; now rewrite app_nil_r|].
  assert (M : marked (i :: infos) = (if is_marked i then [i] else []) ++ marked infos) by (unfold marked; cbn; now destruct (is_marked i)).
  rewrite M in *. cbn [fold_left]. unfold add_type at 2. unfold is_marked in *. destruct (hi_markers i) as [|c cs] eqn:E; cbn [app map] in *.
  - now apply IH.
  - rewrite mset_fresh.
    + rewrite IH; [rewrite <- app_assoc; cbn [app]; unfold text_of at 2; rewrite E; reflexivity|]. rewrite map_app, <- app_assoc. exact N.
    + intros H. apply NoDup_remove_2 in N. apply N. apply in_or_app. now left.
Qed.

Lemma documented_help i : is_marked i = true -> identifier (hi_name i) -> (forall f, In f (hi_fields i) -> hf_name f = "" \/ identifier (hf_name f)) ->
  documented i (let '(n, c, d, fs) := entry i in help_of n c d fs).
Proof.
  intros M I F. unfold entry, documented, help_of, is_marked in *. destruct (hi_markers i) as [|c cs] eqn:E; [discriminate|]. cbn [h_category h_deprecated h_detail h_fields].
  split; [now exists cs|]. split; [reflexivity|]. split.
  - apply godoc_iff; [now apply identifier_no_space|]. destruct (godoc_to_details (hi_name i) (hi_doc i)). reflexivity.
  - clear E. induction (hi_fields i) as [|f fs IH]; cbn [map]; constructor; [|apply IH; intros g Hg; apply F; now right].
    cbn [fst snd]. split; [reflexivity|]. apply godoc_iff.
    + destruct (F f (or_introl eq_refl)) as [->|H]; [apply no_space_empty|now apply identifier_no_space].
    + destruct (godoc_to_details (hf_name f) (hf_doc f)). reflexivity.
Qed.

Section Helpgen.
Variable order : list (string * string) -> list (string * string).
Hypothesis ordered : is_order order.
Variable gofmt : string -> option string.
Variable opens : hroot -> bool.
Variable writes : hroot -> string -> option nat.
(** gofmt keeps what the file means *)
Hypothesis gofmt_keeps : forall s t, gofmt s = Some t -> go_file t = go_file s.

Lemma concat_cons x l : String.concat "" (x :: l) = (x ++ String.concat "" l)%string.
Proof. cbn [String.concat]. destruct l; [now rewrite str_app_nil_r|reflexivity]. Qed.

Lemma file_means pkg header infos : identifier pkg -> comments header -> declared infos ->
  help_file pkg infos (file_text order pkg header (fold_left add_type infos [])).
Proof.
  intros I C [N D]. rewrite (by_type_all infos []) by exact N. cbn [app]. set (bt := map (fun i => (hi_name i, text_of i)) (marked infos)).
  assert (P : Permutation (sort_strings (map fst (order bt))) (map hi_name (marked infos))).
  { etransitivity; [apply sort_strings_perm|]. etransitivity; [apply Permutation_map, ordered|]. unfold bt. rewrite map_map. reflexivity. }
  destruct (Permutation_map_inv _ _ P) as (is & E & Pi).
  assert (S : StronglySorted str_le (sort_strings (map fst (order bt)))) by apply sort_strings_sorted.
  unfold file_text. fold bt. rewrite E in *. exists is, (map (fun x => let '(n, c, d, fs) := x in (n, help_of n c d fs)) (map entry is)).
  split; [now symmetry|]. split; [exact S|].
  assert (Din : forall i, In i is -> In i (marked infos)) by (intros i Hi; now apply (Permutation_in i (Permutation_sym Pi))).
  split.
  - assert (R : run (Between false) (String.concat "" (map (fun t => (match mget String.eqb bt t with Some b => b | None => "" end ++ eol)%string) (map hi_name is))) =
      Some (blocks_tokens (map entry is), Between false)).
    { clear E Pi S P. induction is as [|i is IH]; [reflexivity|]. cbn [map]. rewrite concat_cons.
      assert (G : mget String.eqb bt (hi_name i) = Some (text_of i)).
      { apply (in_mget _ _ _ String.eqb_eq); [unfold bt; rewrite map_map; exact N|]. unfold bt. apply in_map_iff. exists i. split; [reflexivity|]. apply Din. now left. }
      rewrite G, run_app. unfold text_of. rewrite run_block by (apply D, Din; now left). cbv iota beta.
      rewrite IH by (intros j Hj; apply Din; now right). reflexivity. }
    unfold go_file, tokens. rewrite lex_run, run_app, (run_head _ _ I C). cbv iota beta. rewrite R. cbv iota beta. cbn [finish option_map].
    rewrite app_nil_r. unfold head_tokens. cbn [app]. change (String.eqb "package" "package") with true. cbv iota.
    match goal with |- context [strip ?p (Semi :: Word "import" :: Sym "(" :: Str ?u :: Semi :: Sym ")" :: Semi :: ?t)] =>
      change (strip p (Semi :: Word "import" :: Sym "(" :: Str u :: Semi :: Sym ")" :: Semi :: t)) with (Some t) end.
    cbv iota beta. rewrite methods_blocks; [reflexivity| |lia].
    apply Forall_forall. intros x Hx. apply in_map_iff in Hx. destruct Hx as (i & <- & Hi). unfold entry. apply D, Din, Hi.
  - clear E Pi S P. induction is as [|i is IH]; cbn [map]; constructor; [|apply IH; intros j Hj; apply Din; now right].
    assert (Hi : In i (marked infos)) by (apply Din; now left). destruct (D i Hi) as (D1 & _ & D3).
    apply filter_In in Hi. assert (X := documented_help i (proj2 Hi) D1 D3). unfold entry in *. cbn [fst snd]. split; [reflexivity|exact X].
Qed.

(** The errors that a package can get *)
Definition is_error (e : hevent) : bool := match e with HWrote _ => false | _ => true end.
(** What can go wrong for a root: gofmt, opening, writing *)
Definition fails (r : hroot) : Prop :=
  opens r = false \/ (exists s, gofmt s = None) \/ exists s, writes r s = None \/ exists n, writes r s = Some n /\ n < String.length s.
(** What is done for a root: nothing if no type is marked; else its file is the help, or it has an error. *)
Definition root_done (header : string) (r : hroot) (es : list hevent) : Prop :=
  exists infos : list hinfo, hr_types r = Some infos /\
  (marked infos = [] /\ es = [] \/
   marked infos <> [] /\ header <> "" /\
   ((exists e, In e es /\ is_error e = true) /\ fails r \/
    exists text, es = [HWrote text] /\ (comments header -> identifier (hr_name r) -> declared infos -> help_file (hr_name r) infos text))).
Definition no_types (r : hroot) : Prop := forall infos, hr_types r = Some infos -> marked infos = [].

Lemma by_type_nil infos : fold_left add_type infos [] = [] <-> marked infos = [].
Proof.
  assert (G : forall m, (m <> [] -> fold_left add_type infos m <> []) /\ (marked infos <> [] -> fold_left add_type infos m <> []) /\ (marked infos = [] -> fold_left add_type infos m = m)).
  { induction infos as [|i infos IH]; intros m; [cbn; easy|]. 
    assert (M : marked (i :: infos) = (if is_marked i then [i] else []) ++ marked infos) by (unfold marked; cbn; now destruct (is_marked i)).
    rewrite M. cbn [fold_left]. remember (add_type m i) as m' eqn:A. unfold add_type in A. unfold is_marked.
    destruct (hi_markers i) as [|c cs]; subst m'; cbn [app]; [apply IH|].
    match goal with |- context [mset String.eqb m ?k ?v] => assert (Ne : mset String.eqb m k v <> []) by (destruct m as [|[k0 v0] m]; cbn; [|destruct (String.eqb k k0)]; discriminate) end.
    split; [|split; [|discriminate]]; intros _; exact (proj1 (IH _) Ne). }
  destruct (G []) as (_ & G2 & G3). split; [|exact G3]. intros H. destruct (marked infos) eqn:M; [reflexivity|]. exfalso. now apply G2.
Qed.

Lemma write_done header r infos : hr_types r = Some infos -> marked infos <> [] -> header <> "" ->
  root_done header r (write_file gofmt opens writes r (file_text order (hr_name r) header (fold_left add_type infos []))).
Proof.
  intros T M H. exists infos. split; [exact T|]. right. split; [exact M|]. split; [exact H|]. unfold write_file.
  destruct (gofmt _) as [t|] eqn:G; [|left; split; [exists HUnformatted; split; [now left|reflexivity]|right; left; eauto]]. cbn [app].
  destruct (opens r) eqn:O; [|left; split; [exists HNotOpened; split; [now left|reflexivity]|now left]].
  destruct (writes r t) as [n|] eqn:W; [|left; split; [exists HNotWritten; split; [now left|reflexivity]|right; right; eauto]].
  destruct (Nat.ltb_spec n (String.length t)) as [L|L]; [left; split; [exists HShort; split; [right; now left|reflexivity]|right; right; exists t; right; eauto]|].
  right. exists (str_take n t). split; [reflexivity|]. intros C I D.
  assert (E : str_take n t = t).
  { clear - L. revert n L. induction t as [|a t IH]; intros [|n] L; cbn in *; try reflexivity; [lia|]. rewrite IH by lia. reflexivity. }
  rewrite E. destruct (file_means (hr_name r) header infos I C D) as (is & l & P & S & F & A). exists is, l. rewrite (gofmt_keeps _ _ G). auto.
Qed.

(** Whatever ends it, every root before is done; and it ends before the last root only if collecting fails or there is no header. *)
Theorem helpgen_roots header rs es o : help_roots order gofmt opens writes header rs = (es, o) ->
  exists done rest, rs = done ++ rest /\ Forall2 (root_done header) done es /\
  match rest, o with
  | [], HDone => True
  | r :: _, HCollect => hr_types r = None
  | r :: _, HPanic => header = "" /\ exists infos : list hinfo, hr_types r = Some infos /\ marked infos <> []
  | _, _ => False
  end.
Proof.
  revert es o. induction rs as [|r rs IH]; intros es o H; cbn [help_roots] in H.
  - injection H as <- <-. exists [], []. repeat split. constructor.
  - destruct (hr_types r) as [infos|] eqn:T; [|injection H as <- <-; exists [], (r :: rs); repeat split; [constructor|exact T]].
    destruct (fold_left add_type infos []) as [|b bt] eqn:B.
    + destruct (help_roots order gofmt opens writes header rs) as [es' o'] eqn:R. injection H as <- <-. destruct (IH _ _ eq_refl) as (done & rest & E & F & X).
      exists (r :: done), rest. split; [cbn; now rewrite E|]. split; [|exact X]. constructor; [|exact F]. exists infos. split; [exact T|]. left. split; [now apply by_type_nil|reflexivity].
    + assert (M : marked infos <> []) by (intros M; apply by_type_nil in M; congruence). rewrite <- B in H. destruct (fold_left add_type infos []) as [|b' bt'] eqn:B'; [congruence|].
      destruct (String.eqb_spec header "") as [->|Hh].
      * injection H as <- <-. exists [], (r :: rs). repeat split; [constructor|]. now exists infos.
      * destruct (help_roots order gofmt opens writes header rs) as [es' o'] eqn:R. injection H as <- <-. destruct (IH _ _ eq_refl) as (done & rest & E & F & X).
        exists (r :: done), rest. split; [cbn; now rewrite E|]. split; [|exact X]. constructor; [|exact F]. rewrite <- B'. now apply write_done.
Qed.

(** If every package is collected, and there is a header if a type is marked, then every root is done. *)
Theorem helpgen_done header year rs text h : header = Some (Some text) \/ header = None /\ text = "" -> replaced " YEAR" year text h ->
  Forall (fun r => hr_types r <> None) rs -> h <> "" \/ Forall no_types rs ->
  exists es, help_generate order gofmt opens writes header year rs = (es, HDone) /\ Forall2 (root_done h) rs es.
Proof.
  intros H R C T. assert (E : help_generate order gofmt opens writes header year rs = help_roots order gofmt opens writes h rs).
  { assert (X : replace_all " YEAR" year text = h).
    { symmetry. apply (replaced_unique " YEAR" year text); [exact R|]. now apply replace_spec. }
    destruct H as [->|[-> ->]]; cbn [help_generate]; now rewrite X. }
  rewrite E. destruct (help_roots order gofmt opens writes h rs) as [es o] eqn:G. apply helpgen_roots in G as (done & rest & -> & F & X).
  destruct rest as [|r rest].
  - destruct o; try contradiction. exists es. rewrite app_nil_r. auto.
  - exfalso. assert (Hr : In r (done ++ r :: rest)) by (apply in_or_app; right; now left).
    rewrite Forall_forall in C. destruct o; try contradiction.
    + now apply (C r Hr).
    + destruct X as (X1 & infos & X2 & X3). destruct T as [T|T]; [easy|]. rewrite Forall_forall in T. apply X3, (T r Hr), X2.
Qed.

(** A header that cannot be read: nothing is done. *)
Theorem helpgen_unread year rs : help_generate order gofmt opens writes (Some None) year rs = ([], HNoHeader).
Proof. reflexivity. Qed.
End Helpgen.
Print Assumptions helpgen_roots.
Print Assumptions helpgen_done.
Print Assumptions helpgen_unread.

(** The order in which Go ranges over maps does not matter. *)
Theorem helpgen_stable o1 o2 gofmt opens writes header year rs : is_order o1 -> is_order o2 ->
  help_generate o1 gofmt opens writes header year rs = help_generate o2 gofmt opens writes header year rs.
Proof.
  intros O1 O2. assert (F : forall p h bt, file_text o1 p h bt = file_text o2 p h bt).
  { intros p h bt. unfold file_text. rewrite (sort_strings_perm_eq (map fst (o1 bt)) (map fst (o2 bt))); [reflexivity|].
    apply Permutation_map. etransitivity; [apply O1|]. symmetry. apply O2. }
  assert (R : forall h rs, help_roots o1 gofmt opens writes h rs = help_roots o2 gofmt opens writes h rs).
  { intros h rs'. induction rs' as [|r rs' IH]; [reflexivity|]. cbn [help_roots]. destruct (hr_types r) as [infos|]; [|reflexivity].
    destruct (fold_left add_type infos []); rewrite IH; [reflexivity|]. now rewrite F. }
  destruct header as [[text|]|]; cbn [help_generate]; [apply R|reflexivity|apply R].
Qed.
Print Assumptions helpgen_stable.

(** The godoc of a type or field has one meaning. *)
Theorem godoc_unique name doc d1 d2 : name = "" \/ identifier name -> godoc name doc d1 -> godoc name doc d2 -> d1 = d2.
Proof.
  intros N. assert (S : no_space name) by (destruct N as [->|N]; [apply no_space_empty|now apply identifier_no_space]).
  rewrite !godoc_iff by easy. destruct d1 as [s1 t1], d2 as [s2 t2]. cbn. congruence.
Qed.
Print Assumptions godoc_unique.
Theorem godoc_exists name doc : name = "" \/ identifier name -> exists d, godoc name doc d.
Proof.
  intros N. assert (S : no_space name) by (destruct N as [->|N]; [apply no_space_empty|now apply identifier_no_space]).
  destruct (godoc_to_details name doc) as [s t] eqn:E. exists (mkDetail s t). now apply godoc_iff.
Qed.
Print Assumptions godoc_exists.

(** With the help of a type: each argument of the type's marker is shown with the godoc of its field (C54 is about what is shown). *)
Theorem helpgen_arguments i h d : documented i h -> NoDup (map hf_name (hi_fields i)) ->
  forall a x f, In (a, x) (d_fields d) -> In f (hi_fields i) -> hf_name f = f_name x ->
  exists det, In (a, det) (fields_help h d) /\ godoc (hf_name f) (hf_doc f) det.
Proof.
  intros (_ & _ & _ & F) N a x f Ha Hf E.
  assert (G : exists det, mget String.eqb (h_fields h) (hf_name f) = Some det /\ godoc (hf_name f) (hf_doc f) det).
  { assert (K : map fst (h_fields h) = map hf_name (hi_fields i)) by (clear - F; induction F as [|g kd gs kds [H _] _ IH]; cbn; [reflexivity|now rewrite H, IH]).
    assert (X : exists det, In (hf_name f, det) (h_fields h) /\ godoc (hf_name f) (hf_doc f) det).
    { clear - F Hf. induction F as [|g [k det] gs kds [H1 H2] _ IH]; [destruct Hf|]. cbn in H1, H2. destruct Hf as [->|Hf].
      - exists det. split; [left; now rewrite H1|exact H2].
      - destruct (IH Hf) as (d & Hd & Gd). exists d. split; [now right|exact Gd]. }
    destruct X as (det & Hd & Gd). exists det. split; [|exact Gd]. apply (in_mget _ _ _ String.eqb_eq); [now rewrite K|exact Hd]. }
  destruct G as (det & Hd & Gd). exists det. split; [|exact Gd]. unfold fields_help. apply in_map_iff. exists (a, x). split; [|exact Ha]. cbn [fst snd]. now rewrite <- E, Hd.
Qed.
Print Assumptions helpgen_arguments.

(** ** What does not hold *)

Definition demo_info : hinfo := mkHInfo "Generator" ("Generator makes things." ++ eol ++ eol ++ "It says ""so""." ++ eol)%string [""]
  [mkHField "Name" "Name to use."; mkHField "Other" ""].
Definition demo_root : hroot := mkHRoot "things" (Some [mkHInfo "Unmarked" "" [] []; demo_info; mkHInfo "A" "not of A" ["x"; "y"] []]).
Definition demo_run header year rs := help_generate (fun l => l) Some (fun _ => true) (fun _ s => Some (String.length s)) header year rs.

(** "The header file is optional" (its marker says so): without it helpgen panics, in the middle of its work. *)
Theorem helpgen_header_refuted : exists es, demo_run None "" [mkHRoot "empty" (Some []); demo_root] = (es, HPanic).
Proof. eexists. reflexivity. Qed.
Print Assumptions helpgen_header_refuted.

(** "YEAR in the header becomes the year": the space before it goes too. *)
Theorem helpgen_year_refuted : exists text, replaced " YEAR" "2019" "// Copyright YEAR The Authors." text /\ text = "// Copyright2019 The Authors.".
Proof.
  eexists. split; [|reflexivity].
  apply (replace_spec " YEAR" "2019" ltac:(discriminate) 100 "// Copyright YEAR The Authors."). cbn. lia.
Qed.
Print Assumptions helpgen_year_refuted.

(** "What it writes is Go": not for a type with two embedded fields, as the map of fields then has the same key twice. *)
Theorem helpgen_embedded_refuted : exists text,
  demo_run (Some (Some "// x")) "" [mkHRoot "p" (Some [mkHInfo "T" "" [""] [mkHField "" ""; mkHField "" ""]])] = ([[HWrote text]], HDone) /\ go_file text = None.
Proof. eexists. split; [reflexivity|]. vm_compute. reflexivity. Qed.
Print Assumptions helpgen_embedded_refuted.

(** "A file with errors is not written": one that gofmt refuses is. *)
Theorem helpgen_unformatted_refuted : exists text,
  help_generate (fun l => l) (fun _ => None) (fun _ => true) (fun _ s => Some (String.length s)) (Some (Some "x")) "" [demo_root] = ([[HUnformatted; HWrote text]], HDone).
Proof. eexists. reflexivity. Qed.
Print Assumptions helpgen_unformatted_refuted.

(** ** Cases *)
Example helpgen_case : exists text, demo_run (Some (Some "/* Copyright YEAR */")) " 2024" [demo_root] = ([[HWrote text]], HDone) /\
  go_file text = Some ("things", [
    ("A", mkDHelp (mkDetail "not of A" "") "x" None []);
    ("Generator", mkDHelp (mkDetail "makes things." "It says ""so"".") "" None [("Name", mkDetail "to use." ""); ("Other", mkDetail "" "")])]).
Proof. eexists. split; [reflexivity|]. vm_compute. reflexivity. Qed.
Lemma ident_ok s : match s with String a r => is_letter a && DocModel.all_chars is_ident r | EmptyString => false end = true -> identifier s.
Proof.
  destruct s as [|a r]; [discriminate|]. rewrite andb_true_iff. intros [H1 H2]. exists a, r. split; [reflexivity|]. split; [exact H1|].
  intros x. revert r H2. induction x as [|c x IH]; intros r H2 b y ->; cbn in H2; apply andb_true_iff in H2 as [H2 H3]; [exact H2|]. now apply (IH _ H3 b y).
Qed.
Example helpgen_case_premises : exists infos, hr_types demo_root = Some infos /\ marked infos <> [] /\ declared infos /\ comments "/* Copyright 2024 */" /\ identifier (hr_name demo_root).
Proof.
  eexists. split; [reflexivity|]. split; [discriminate|]. split; [|split; [reflexivity|now apply ident_ok]].
  split; [vm_compute; repeat constructor; cbn; intuition discriminate|]. intros i [<-|[<-|[]]].
  - split; [now apply ident_ok|]. split; [vm_compute; repeat constructor; cbn; intuition discriminate|]. intros f [<-|[<-|[]]]; right; now apply ident_ok.
  - split; [now apply ident_ok|]. split; [constructor|]. intros f [].
Qed.
