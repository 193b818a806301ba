(** * Proofs about the marker tables: comments. *)
From Coq Require Import List String Ascii Bool Arith ZArith QArith Permutation Sorting.Sorted Lia.
From Verif Require Import GoLib GoLibFacts HelpgenSpec HelpgenProofs2 MapFacts DocModel ScanModel RegistryModel RegistrySpec RegistryProofs RegistryProps ParseModel ParseSpec ScanProofs ParseProofs ParseGrammar ParseDefs
  SchemaModel MarkModel CrdModel CollectModel CollectProps TablesModel TablesSpec TablesProofs TablesProofs2.
From Verif Require RbacModel WebhookModel.
Import ListNotations.
Open Scope string_scope.
Open Scope list_scope.

Section Read.
Variable fval : string -> option Q.
Variable json_read : string -> option json.
Notation read := (parse_value fval json_read).
Notation kind_of d := (p_kind (d_payload d)).
Notation def_of d := (p_def (d_payload d)).

Lemma chars_not c s (p : ascii -> Prop) : all_chars p s -> ~ p c -> has_char c s = false.
Proof.
  induction s as [|a s IH]; intros A N; [reflexivity|]. apply all_cons in A as [A1 A2]. simpl. destruct (Ascii.eqb_spec a c) as [->|]; [contradiction|]. cbn. now apply IH.
Qed.
Lemma spaces_not c s : spaces s -> ~ space_char c -> has_char c s = false. Proof. intros. eapply chars_not; eassumption. Qed.
Lemma not_word_eq : ~ word_char "=". Proof. unfold word_char, letter_char, digit_char. cbn. lia. Qed.
Lemma not_word_colon : ~ word_char ":". Proof. unfold word_char, letter_char, digit_char. cbn. lia. Qed.
Lemma not_space_eq : ~ space_char "=". Proof. unfold space_char, codes. cbn. intuition discriminate. Qed.
Lemma not_space_colon : ~ space_char ":". Proof. unfold space_char, codes. cbn. intuition discriminate. Qed.

(** The first argument's name, with the rest *)
Lemma args_first k s l : args_text fval (parameters k) s l -> exists a rest, s = (a ++ "=" ++ rest)%string /\ has_char "=" a = false /\ has_char ":" a = false.
Proof.
  assert (G : forall w n w1, spaces w -> spaces w1 -> (exists a r, In (n, a, r) (parameters k)) -> has_char "=" (w ++ n ++ w1) = false /\ has_char ":" (w ++ n ++ w1) = false).
  { intros w n w1 W W1 (a & r & I). apply parameter_names in I as [_ I]. rewrite !has_char_app.
    rewrite (spaces_not "=" w W not_space_eq), (spaces_not "=" w1 W1 not_space_eq), (spaces_not ":" w W not_space_colon), (spaces_not ":" w1 W1 not_space_colon), (chars_not "=" n _ I not_word_eq), (chars_not ":" n _ I not_word_colon). auto. }
  destruct 1 as [w n w1 w2 s a r v b W W1 P Bf De|w n w1 w2 s w3 a r v b rest l W W1 P Bf De Af At]; destruct (G w n w1 W W1 (ex_intro _ a (ex_intro _ r P))) as [G1 G2].
  - exists (w ++ n ++ w1)%string, (w2 ++ s)%string. rewrite !str_app_assoc. auto.
  - exists (w ++ n ++ w1)%string, (w2 ++ s ++ w3 ++ "," ++ rest)%string. rewrite !str_app_assoc. auto.
Qed.
Lemma named_kind l k v : named_value l k v -> takes_one k = None /\ k <> TRaw /\ k <> TKubernetesDefault /\ parameters k <> [].
Proof. destruct 1; repeat split; discriminate. Qed.
Lemma flag_kind k v : flag k v -> takes_one k = None /\ k <> TRaw /\ k <> TKubernetesDefault /\ parameters k = [] /\ build fval k [] = v.
Proof. destruct 1; repeat split; discriminate. Qed.
Lemma struct_complete d l k : map param (d_fields d) = parameters k -> all_required (parameters k) l -> complete d (map fst l).
Proof.
  intros M R n f I O. apply (R n (f_arg f)). rewrite <- M. apply in_map_iff. exists (n, f). unfold param. cbn. rewrite O. auto.
Qed.
Lemma split_eq n rest : has_char "=" n = false -> exists a b, split_marker ("+" ++ n ++ "=" ++ rest) = Some (a, b, rest).
Proof.
  intros H. assert (E := marker_arguments_anonymous n rest H). unfold argument_text in E. destruct (split_marker _) as [[[a b] c]|]; [|discriminate]. cbn in E. injection E as ->. eauto.
Qed.
Lemma has_prefix_iff p s : has_prefix p s = true <-> exists r, s = (p ++ r)%string.
Proof.
  split; [|intros (r & ->); apply has_prefix_app]. revert s. induction p as [|a p IH]; intros s H; [exists s; reflexivity|]. destruct s as [|b s]; [discriminate|]. cbn in H.
  destruct (Ascii.eqb_spec a b) as [->|]; [|discriminate]. destruct (IH s H) as (r & ->). exists r. reflexivity.
Qed.

Lemma all_space_nil : all_space "". Proof. intros [|] ? ? E; discriminate. Qed.
Lemma all_space_cons a s : all_space (String a s) <-> In (nat_of_ascii a) [9; 10; 11; 12; 13; 32] /\ all_space s.
Proof.
  split.
  - intros H. split; [apply (H "" a s eq_refl)|]. intros x b y ->. apply (H (String a x) b y). reflexivity.
  - intros [H1 H2] [|c x] b y E; injection E as -> E; [assumption|]. apply (H2 x b y E).
Qed.
(** Any text is nothing or something that does not end in white space, then white space *)
Lemma back s : exists t x, s = (t ++ x)%string /\ all_space x /\ forall a r, t = (r ++ String a "")%string -> ~ In (nat_of_ascii a) [9; 10; 11; 12; 13; 32].
Proof.
  induction s as [|a s (t & x & -> & X & T)]; [exists "", ""; repeat split; [apply all_space_nil|intros a [|]; discriminate]|].
  destruct (in_dec Nat.eq_dec (nat_of_ascii a) [9; 10; 11; 12; 13; 32]) as [H|H].
  - destruct t as [|b t].
    + exists "", (String a x). repeat split; [apply all_space_cons; auto|intros c [|]; discriminate].
    + exists (String a (String b t)), x. repeat split; [exact X|]. intros c [|d r] E; [discriminate|]. injection E as -> E. apply (T c r E).
  - exists (String a t), x. repeat split; [exact X|]. intros c [|d r] E; injection E as -> E; [exact H|]. apply (T c r E).
Qed.
Lemma ref_iff s : ref_text s <-> has_prefix "ref(" (trim_space s) = true.
Proof.
  rewrite has_prefix_iff. split.
  - intros (w & r & -> & W). destruct (back r) as (t & x & -> & X & T). exists t. apply trimmed_iff. exists w, x. split; [now rewrite !str_app_assoc|]. repeat split; [exact W|exact X| |].
    + intros a r [= <- _]. cbn. intuition discriminate.
    + intros a r0 E. do 4 (destruct r0 as [|? r0]; [injection E as <- E; try discriminate E; cbn; intuition discriminate|injection E as _ E]). apply (T a r0 E).
  - intros (r & Er). destruct (proj2 (trimmed_iff s (trim_space s)) eq_refl) as (x & y & E & X & Y & T1 & T2). exists x, (r ++ y)%string. split; [|exact X]. rewrite E at 1. rewrite Er. rewrite !str_app_assoc. reflexivity.
Qed.

(** ** Texts *)
Lemma says_read gs d text v : In d (definitions gs) -> says fval json_read (kind_of d) (d_name d) text v ->
  lookup payload (registry_of gs) ("+" ++ text) (d_target d) = Some d /\ read d ("+" ++ text) = Some v.
Proof.
  intros I S. assert (P : has_char "=" (d_name d) = false) by (apply in_definitions in I as (g & _ & H); apply (names_plain g), H).
  assert (St := strict gs d I).
  inversion S as [k n v0 F|k n a w s x b v0 T De Bf O|k n s l v0 At R Nv|k n v0 R Nv|n s j J Nr|n s Rf|s E]; subst.
  - (* flag *) destruct (flag_kind _ _ F) as (T & K1 & K2 & Pe & Bu). destruct (struct_shape gs d I T K1 K2) as (M & _ & _ & _ & An). rewrite Pe in M. apply map_eq_nil in M.
    split; [apply lookup_plain_name, I|]. rewrite <- Bu. apply (parse_value_eq fval json_read d _ ""); [exact K2|apply marker_arguments_none, P|]. rewrite parse_empty, M. cbn [forallb negb]. now rewrite andb_false_r.
  - (* one *) destruct (one_shape gs d a I T) as (f & Ef & En & Ea & Eo). split; [apply lookup_name, I|].
    assert (K2 : kind_of d <> TKubernetesDefault) by (intros E; rewrite E in T; discriminate).
    rewrite <- (one_build fval (kind_of d) a x v T O). apply (parse_value_eq fval json_read d _ (w ++ s)); [exact K2| |].
    + unfold anonymous_field. rewrite Ef. change (String.eqb "" "") with true. apply marker_arguments_anonymous, P.
    + rewrite <- En. apply (parse_anonymous (float_ok fval) _ f w s x b Ef); [rewrite Ea; exact De|exact Bf].
  - (* arguments *) destruct (named_kind _ _ _ Nv) as (T & K1 & K2 & Pe). destruct (struct_shape gs d I T K1 K2) as (M & Mp & N1 & N2 & An).
    destruct (args_first _ _ _ At) as (a & rest & Es & A1 & A2). split.
    + rewrite Es. replace (d_name d ++ ":" ++ a ++ "=" ++ rest)%string with ((d_name d ++ ":" ++ a) ++ "=" ++ rest)%string by now rewrite !str_app_assoc.
      apply lookup_part; auto. intros d' I'. apply in_definitions in I as (g & _ & I), I' as (g' & _ & I'). apply (struct_prefix g g'); assumption.
    + destruct (args_arguments fval _ (def_of d) s l M N1 At) as (l' & Ar & El & Il).
      assert (Nm : ParseDefs.names l' = map fst l). { subst l. unfold ParseDefs.names. rewrite map_map. reflexivity. }
      destruct (parse_named_ok (float_ok fval) (def_of d) s l' An Ar) as (out & Po & G); [intros _; rewrite Nm; eapply struct_complete; eassumption|].
      rewrite <- (named_build fval (kind_of d) l out v); [|intros n fld H; rewrite <- Mp in H; apply in_map_iff in H as ([n' f] & E & H); injection E as <- <-; apply (fields_get (def_of d) l' l out n' f); auto|exact Nv].
      apply (parse_value_eq fval json_read d _ s); [exact K2| |exact Po]. rewrite An. cbn [negb andb].
      assert (Nf : no_fields (def_of d) = false). { unfold no_fields. destruct (d_fields (def_of d)); [cbn in M; congruence|reflexivity]. } rewrite Nf. cbn [negb andb].
      rewrite Es. replace (d_name d ++ ":" ++ a ++ "=" ++ rest)%string with ((d_name d ++ ":" ++ a) ++ "=" ++ rest)%string by now rewrite !str_app_assoc. apply marker_arguments; auto.
  - (* none *) destruct (named_kind _ _ _ Nv) as (T & K1 & K2 & Pe). destruct (struct_shape gs d I T K1 K2) as (M & Mp & N1 & N2 & An). split; [apply lookup_plain_name, I|].
    rewrite <- (named_build fval (kind_of d) [] [] v); [|intros n fld H; split; [intros u (x & y & E & _); destruct x; discriminate|reflexivity]|exact Nv].
    apply (parse_value_eq fval json_read d _ ""); [exact K2|apply marker_arguments_none, P|]. rewrite parse_empty.
    assert (C := proj2 (complete_iff (def_of d) []) (struct_complete (def_of d) [] _ M R)). rewrite C. cbn [negb]. now rewrite andb_false_r.
  - (* default *) split; [apply lookup_name, I|]. unfold parse_value. match goal with H : TKubernetesDefault = kind_of d |- _ => rewrite <- H end. destruct (split_eq (d_name d) s P) as (a & b & ->).
    unfold parse_kubernetes_default. destruct (has_prefix "ref(" (trim_space s)) eqn:E; [elim Nr; apply ref_iff, E|]. rewrite J. reflexivity.
  - split; [apply lookup_name, I|]. unfold parse_value. match goal with H : TKubernetesDefault = kind_of d |- _ => rewrite <- H end. destruct (split_eq (d_name d) s P) as (a & b & ->).
    unfold parse_kubernetes_default. apply ref_iff in Rf. rewrite Rf. reflexivity.
  - (* group *) match goal with H : TText = kind_of d |- _ => rename H into Ek end. match goal with H : "groupName" = d_name d |- _ => rename H into En end.
    destruct (one_shape gs d AStr I) as (f & Ef & _ & _ & Eo); [rewrite <- Ek; reflexivity|]. rewrite <- En in Eo. cbn in Eo.
    assert (An : anonymous_field (def_of d) = true) by (unfold anonymous_field; rewrite Ef; reflexivity).
    assert (B : parse_fields (float_ok fval) (def_of d) "" = Ok []). { rewrite parse_empty, Ef. cbn [forallb snd]. rewrite Eo. cbn. now rewrite andb_false_r. }
    assert (K2 : kind_of d <> TKubernetesDefault) by (rewrite <- Ek; discriminate).
    assert (Bv : TvText "" = build fval (kind_of d) []) by (rewrite <- Ek; reflexivity). rewrite Bv.
    destruct E as [->| ->].
    + split; [rewrite En; apply lookup_plain_name, I|]. apply (parse_value_eq fval json_read d _ ""); [exact K2| |exact B]. rewrite En. apply marker_arguments_none, P.
    + replace "groupName=" with (d_name d ++ "=" ++ "")%string by (rewrite <- En; reflexivity). split; [apply lookup_name, I|].
      apply (parse_value_eq fval json_read d _ ""); [exact K2| |exact B]. rewrite An. cbn [negb andb]. apply marker_arguments_anonymous, P.
Qed.
Lemma comment_text m text : comment_of m text -> marker_text m = ("+" ++ text)%string.
Proof. intros (body & E & T). unfold marker_text. rewrite E. simpl. apply trimmed_iff, T. Qed.
Lemma comment_read gs k t n text v m : known gs k t n -> says fval json_read k n text v -> comment_of m text ->
  values_of payload tvalue (registry_of gs) read t n m = [v] /\ (forall n', n' <> n -> values_of payload tvalue (registry_of gs) read t n' m = []) /\ unparsed payload tvalue (registry_of gs) read t m = [].
Proof.
  intros K S C. apply known_definition in K as (d & I & <- & <- & <-). destruct (says_read gs d text v I S) as [L R]. unfold values_of, unparsed. rewrite (comment_text m text C), L, R, String.eqb_refl.
  repeat split. intros n' N. destruct (String.eqb_spec (d_name d) n'); [congruence|reflexivity].
Qed.

(** ** What a value tells of its comment *)
Lemma build_kind k out : value_kind (build fval k out) = Some k. Proof. destruct k; reflexivity. Qed.
Lemma read_kind d raw v : read d raw = Some v -> value_kind v = Some (kind_of d).
Proof.
  unfold parse_value. assert (G : forall k, match parse_marker (float_ok fval) (def_of d) raw with Some (Ok out) => Some (build fval k out) | _ => None end = Some v -> value_kind v = Some k).
  { intros k. destruct (parse_marker _ _ _) as [[out| |]|]; try discriminate. intros [= <-]. apply build_kind. }
  destruct (kind_of d); try (exact (G _)).
  destruct (split_marker raw) as [[[a b] c]|]; [|discriminate]. unfold parse_kubernetes_default. destruct (has_prefix _ _); [intros [= <-]; reflexivity|]. destruct (json_read c); [|discriminate]. intros [= <-]. reflexivity.
Qed.
Lemma value_found gs t n v m : In v (values_of payload tvalue (registry_of gs) read t n m) -> exists k, value_kind v = Some k /\ known gs k t n /\
  exists c, marker_text m = String c n \/ (exists rest, marker_text m = String c (n ++ "=" ++ rest)) \/
    (exists a rest, marker_text m = String c (n ++ ":" ++ a ++ "=" ++ rest) /\ has_char "=" a = false /\ has_char ":" a = false).
Proof.
  unfold values_of. destruct (lookup _ _ _ _) as [d|] eqn:L; [|intros []]. destruct (String.eqb_spec (d_name d) n) as [<-|]; [|intros []]. destruct (read d _) as [u|] eqn:R; [|intros []]. intros [<-|[]].
  destruct (lookup_found gs _ t d L) as (I & Et & F). exists (kind_of d). split; [apply (read_kind _ _ _ R)|]. split; [|exact F]. apply known_definition. exists d. auto.
Qed.
End Read.
