(** * Properties C18 and C19: parsing marker arguments. *)
From Coq Require Import List String Ascii Bool Arith NArith ZArith Lia.
From Verif Require Import GoLib GoLibFacts ScanModel RegistryModel ParseModel ParseSpec ScanProofs ParseTerm ParseProofs ParseGrammar ParseDefs ParseWrite.
Import ListNotations.
Open Scope string_scope.
Open Scope list_scope.

(** ** C18 *)

(** A definition with one argument that has no name *)
Definition anonymous (a : arg) : definition := mkDefinition [("", mkField "" a false)] true.
Definition floats (s : string) : bool := true.

(** Parsing always ends, with a value or an error. *)
Theorem marker_parse_ends (float_ok : string -> bool) d s : parse_fields float_ok d s <> NoFuel.
Proof. exact (parse_fields_fuel float_ok d s). Qed.
Print Assumptions marker_parse_ends.

(** Texts of the grammar are parsed as their values, and nothing of them is left. *)
Theorem marker_value_parsed (float_ok : string -> bool) d f w s v b : d_fields d = [("", f)] -> denotes float_ok (f_arg f) s v b -> before w s ->
  parse_fields float_ok d (w ++ s) = Ok [(f_name f, v)].
Proof. exact (parse_anonymous float_ok d f w s v b). Qed.
Print Assumptions marker_value_parsed.

(** As an argument among others: parsing stops exactly at the ',' that follows. *)
Theorem marker_value_consumed (float_ok : string -> bool) a raw st s v b t : denotes float_ok a s v b -> (t = "" \/ begins (fun c => c = ","%char) t) -> at_ raw st (s ++ t) ->
  exists st', parse_arg float_ok a raw st = Ok (v, st') /\ at_ raw st' t.
Proof. exact (parse_arg_denotes float_ok a raw st s v b t). Qed.
Print Assumptions marker_value_consumed.

(** So a text has one value. *)
Theorem marker_value_unique (float_ok : string -> bool) a s v b v' b' : denotes float_ok a s v b -> denotes float_ok a s v' b' -> v = v'.
Proof. exact (denotes_unique float_ok a s v b v' b'). Qed.
Print Assumptions marker_value_unique.

(** Every value has a text. *)
Theorem marker_value_written (float_ok : string -> bool) a v : written float_ok a v -> exists s, denotes float_ok a s v false.
Proof. intros H. exists (print v). exact (print_denotes float_ok v a H). Qed.
Print Assumptions marker_value_written.

(** Printing then parsing gives the value back. *)
Theorem marker_round_trip (float_ok : string -> bool) a v : written float_ok a v -> parse_fields float_ok (anonymous a) (print v) = Ok [("", v)].
Proof. intros H. exact (parse_anonymous float_ok (anonymous a) (mkField "" a false) "" (print v) v false eq_refl (print_denotes float_ok v a H) (before_none _)). Qed.
Print Assumptions marker_round_trip.
Theorem marker_print_injective (float_ok : string -> bool) a v v' : written float_ok a v -> written float_ok a v' -> print v = print v' -> v = v'.
Proof. intros H H' E. apply (denotes_unique float_ok a (print v) v false v' false); [exact (print_denotes float_ok v a H)|rewrite E; exact (print_denotes float_ok v' a H')]. Qed.
Print Assumptions marker_print_injective.

(** Raw arguments are never cut. *)
Theorem marker_raw (float_ok : string -> bool) d f s out : d_fields d = [("", f)] -> f_arg f = ARaw -> s <> "" -> parse_fields float_ok d s = Ok out -> out = [(f_name f, VRaw s)].
Proof. exact (parse_raw float_ok d f s out). Qed.
Print Assumptions marker_raw.

Definition sample : value := VMap [("text", VStr "abc"); ("len", VInt (-3)); ("as bytes", VList [VInt 97; VInt 98]); ("props", VMap [("on", VBool true); ("tags", VList [VStr "a,b"; VStr "in a row"])])].
Example sample_written : written floats AAny sample.
Proof.
  assert (M : forall m, NoDup (map fst m) -> Forall (fun kv => written floats AAny (snd kv)) m -> written floats AAny (VMap m)) by (intros m N F; apply (written_any _ (AMap AAny)); [constructor|constructor; assumption]).
  assert (St : forall s, written floats AAny (VStr s)) by (intros s; apply (written_any _ AStr); constructor).
  assert (I : forall z, in_int64 z -> written floats (AInt false) (VInt z)) by (intros z H; constructor; exact H).
  apply M; [repeat constructor; cbn; intuition discriminate|]. repeat apply Forall_cons; cbn [snd]; [apply St|apply (written_any _ (AInt false)); [constructor|apply I; unfold in_int64; lia]| | |constructor].
  - apply (written_any _ (ASlice (AInt false))); [constructor; [constructor|apply I; unfold in_int64; lia]|]. constructor. repeat constructor; lia.
  - apply M; [repeat constructor; cbn; intuition discriminate|]. repeat apply Forall_cons; cbn [snd]; [apply (written_any _ ABool); constructor| |constructor]. apply (written_any _ (ASlice AStr)); [constructor; constructor|]. constructor. repeat constructor.
Qed.
Example sample_text : print sample = "{""text"":""abc"",""len"":-3,""as bytes"":{97,98},""props"":{""on"":true,""tags"":{""a,b"",""in a row""}}}".
Proof. reflexivity. Qed.
Example sample_parsed : parse_fields floats (anonymous AAny) (print sample) = Ok [("", sample)].
Proof. exact (marker_round_trip floats AAny sample sample_written). Qed.
Example quoted_sample : quote (String (ascii_of_nat 10) "a""") = """\x0aa\""""".
Proof. reflexivity. Qed.
(** a text of the grammar with bare strings: val;val *)
Lemma bare_word s : s <> "" -> all_chars word_char s -> bare s.
Proof.
  intros N A. assert (B : forall a, word_char a -> ~ (space_char a \/ a = "{"%char) /\ ~ In a [","; ";"; ":"; "}"; "`"]%char /\ a <> quote_char).
  { intros a H. unfold word_char, letter_char, digit_char, space_char, codes in *. cbn zeta in H. repeat split.
    - intros [X|X]; [cbn in X; lia|subst a; cbn in H; lia].
    - intros X. cbn in X. repeat (destruct X as [X|X]; [subst a; cbn in H; lia|]). exact X.
    - intros X. subst a. cbn in H. lia. }
  split; [exact N|]. split; [intros x a y E; apply B, (A x a y E)|]. split; [intros (a & y & -> & H); exact (proj1 (B a (A "" a y eq_refl)) H)|]. intros x a E H. exact (proj1 (B a (A x a "" E)) (or_introl H)).
Qed.
Example grammar_sample : denotes floats (ASlice AStr) "hi;hello" (VList [VStr "hi"; VStr "hello"]) true.
Proof.
  assert (L : forall s, s <> "" -> all_chars word_char s -> flat floats AStr s (VStr s) true) by (intros s N A; apply flat_typed; [left; reflexivity|apply denotes_str, text_bare, bare_word; assumption]).
  apply denotes_legacy. apply (legacy_more floats AStr "hi" (VStr "hi") true "" "" "hello" [VStr "hello"] true); [|split; [apply spaces_nil|reflexivity]|apply spaces_nil|apply legacy_last]; apply L; try discriminate.
  all: repeat (apply all_cons; split; [left; unfold letter_char; cbn; lia|]); intros [|] ? ? E; discriminate E.
Qed.

(** The cases of pkg/markers/parse_test.go:172-218 *)
Definition arg_case (a : arg) (raw : string) (v : value) : Prop := parse_fields floats (anonymous a) raw = Ok [("", v)].
Definition nl : string := String (ascii_of_nat 10) "".
Example case_bare : arg_case AStr "some string here!" (VStr "some string here!"). Proof. vm_compute. reflexivity. Qed.
Example case_bare1 : arg_case AStr "aa 0Baaa aaa" (VStr "aa 0Baaa aaa"). Proof. vm_compute. reflexivity. Qed.
Example case_bare2 : arg_case AStr "/tmp/tmp-CHECKCRD-0B7LDeoZta" (VStr "/tmp/tmp-CHECKCRD-0B7LDeoZta"). Proof. vm_compute. reflexivity. Qed.
Example case_bare3 : arg_case AStr ".0B7LDeoZt" (VStr ".0B7LDeoZt"). Proof. vm_compute. reflexivity. Qed.
Example case_quoted : arg_case AStr """some; string, \nhere""" (VStr ("some; string, " ++ nl ++ "here")). Proof. vm_compute. reflexivity. Qed.
Example case_raw : arg_case AStr "`some; string, \nhere`" (VStr "some; string, \nhere"). Proof. vm_compute. reflexivity. Qed.
Example case_int : arg_case (AInt false) "42" (VInt 42). Proof. vm_compute. reflexivity. Qed.
Example case_negative : arg_case (AInt false) "-42" (VInt (-42)). Proof. vm_compute. reflexivity. Qed.
Example case_bool : arg_case ABool "false" (VBool false) /\ arg_case ABool "true" (VBool true). Proof. vm_compute. auto. Qed.
Definition slices : value := VList [VList [VInt 1; VInt 1]; VList [VInt 2; VInt 3]; VList [VInt 5; VInt 8]].
Definition greetings : value := VList [VStr "hi"; VStr "hello"; VStr "hey y'all"].
Example case_slices : arg_case (ASlice AStr) "hi;hello;hey y'all" greetings /\ arg_case (ASlice AStr) "{hi,hello,hey y'all}" greetings /\
  arg_case (ASlice (ASlice (AInt false))) "{1;1,2;3,5;8}" slices /\ arg_case (ASlice (ASlice (AInt false))) "{{1,1},{2,3},{5,8}}" slices.
Proof. vm_compute. auto. Qed.
Example case_maps : arg_case (AMap AStr) "{formal: hello, `informal`: `hi!`}" (VMap [("formal", VStr "hello"); ("informal", VStr "hi!")]) /\ arg_case (AMap AStr) "{}" (VMap []).
Proof. vm_compute. auto. Qed.
Example case_any : arg_case AAny "some string here!" (VStr "some string here!") /\ arg_case AAny """some; string, \nhere""" (VStr ("some; string, " ++ nl ++ "here")) /\
  arg_case AAny "`some; string, \nhere`" (VStr "some; string, \nhere") /\ arg_case AAny "42" (VInt 42) /\ arg_case AAny "-42" (VInt (-42)) /\ arg_case AAny "false" (VBool false) /\ arg_case AAny "true" (VBool true) /\
  arg_case AAny "hi;hello;hey y'all" greetings /\ arg_case AAny "{hi,hello,hey y'all}" greetings /\ arg_case AAny "{1;1,2;3,5;8}" slices /\ arg_case AAny "{{1,1},{2,3},{5,8}}" slices.
Proof. vm_compute. repeat split. Qed.
Example case_nested : arg_case AAny "{text: ""abc"", len: 3, ""as bytes"": 97;98;99, props: {encoding: ascii, nullsafe: true, tags: {""triple"", ""in a row""}}}"
  (VMap [("text", VStr "abc"); ("len", VInt 3); ("as bytes", VList [VInt 97; VInt 98; VInt 99]);
         ("props", VMap [("encoding", VStr "ascii"); ("nullsafe", VBool true); ("tags", VList [VStr "triple"; VStr "in a row"])])]).
Proof. vm_compute. reflexivity. Qed.

(** *** What does not hold *)

Definition two : definition := mkDefinition [("a", mkField "A" AStr false); ("b", mkField "B" AStr true)] true.
(** White space after a bare string loses the string. *)
Theorem marker_space_after_string_refuted : parse_fields floats two "a=foo ,b=x" = Ok [("A", VStr ""); ("B", VStr "x")] /\ parse_fields floats (anonymous AStr) "foo " = Ok [("", VStr "")].
Proof. vm_compute. auto. Qed.
Print Assumptions marker_space_after_string_refuted.
(** An empty value swallows the next argument. *)
Theorem marker_empty_value_refuted : parse_fields floats two "a=,b=x" = Ok [("A", VStr ",b=x")].
Proof. vm_compute. reflexivity. Qed.
Print Assumptions marker_empty_value_refuted.
(** White space before a minus sign is an error. *)
Theorem marker_space_before_minus_refuted : parse_fields floats (anonymous (AMap (AInt false))) "{a: -5}" = Err /\ parse_fields floats (anonymous (AMap (AInt false))) "{a:-5}" = Ok [("", VMap [("a", VInt (-5))])] /\
  parse_fields floats (anonymous (AMap (AInt false))) "{a: 5}" = Ok [("", VMap [("a", VInt 5)])].
Proof. vm_compute. auto. Qed.
Print Assumptions marker_space_before_minus_refuted.
(** Some strings without quotes are not taken for strings if the type is guessed. *)
Theorem marker_guess_refuted : parse_fields floats (anonymous AAny) "1.5.2" = Err /\ parse_fields floats (anonymous AAny) "true story" = Err /\ parse_fields floats (anonymous AAny) "08:00" = Err /\
  parse_fields floats (anonymous AStr) "1.5.2" = Ok [("", VStr "1.5.2")].
Proof. vm_compute. auto. Qed.
Print Assumptions marker_guess_refuted.
(** Whether val;val is read as a list in a map depends on the other entries. *)
Theorem marker_list_in_map_refuted : parse_fields floats (anonymous AAny) "{a: x;y}" = Err /\ parse_fields floats (anonymous AAny) "{a: 1, b: x;y}" = Ok [("", VMap [("a", VInt 1); ("b", VList [VStr "x"; VStr "y"])])].
Proof. vm_compute. auto. Qed.
Print Assumptions marker_list_in_map_refuted.
(** An empty list cannot be written where the type is guessed. *)
Theorem marker_empty_list_refuted : parse_fields floats (anonymous AAny) "{}" = Ok [("", VMap [])] /\ parse_fields floats (anonymous (ASlice AAny)) "{}" = Ok [("", VList [])].
Proof. vm_compute. auto. Qed.
Print Assumptions marker_empty_list_refuted.
(** Numbers too large for an int32 are wrapped silently. *)
Theorem marker_int32_refuted : parse_fields floats (anonymous (AInt true)) "4294967297" = Ok [("", VInt 1)].
Proof. vm_compute. reflexivity. Qed.
Print Assumptions marker_int32_refuted.
(** Raw arguments are scanned for tokens: a quote that is not closed is an error. *)
Theorem marker_raw_quote_refuted : parse_fields floats (anonymous ARaw) "say ""x" = Err /\ parse_fields floats (anonymous ARaw) "say x, y" = Ok [("", VRaw "say x, y")].
Proof. vm_compute. auto. Qed.
Print Assumptions marker_raw_quote_refuted.

(** ** C19 *)

(** What was parsed: only declared arguments, values of their types, every required argument; for all texts. *)
Theorem marker_fields_sound (float_ok : string -> bool) d s out : parse_fields float_ok d s = Ok out ->
  (forall k v, mget String.eqb out k = Some v -> exists name f, declared d name f /\ k = f_name f /\ typed float_ok (f_arg f) v) /\
  (d_strict d = true -> forall name f, declared d name f -> f_optional f = false -> exists v, mget String.eqb out (f_name f) = Some v).
Proof. exact (parse_sound float_ok d s out). Qed.
Print Assumptions marker_fields_sound.

(** Well-formed arguments with all that is required: each field has the last value given for it. *)
Theorem marker_fields_parsed (float_ok : string -> bool) d s l : anonymous_field d = false -> arguments float_ok d s l -> (d_strict d = true -> complete d (names l)) ->
  exists out, parse_fields float_ok d s = Ok out /\ forall k v, mget String.eqb out k = Some v <-> last_value (sets l) k v.
Proof. exact (parse_named_ok float_ok d s l). Qed.
Print Assumptions marker_fields_parsed.

(** A required one missing *)
Theorem marker_fields_missing (float_ok : string -> bool) d s l : anonymous_field d = false -> arguments float_ok d s l -> d_strict d = true -> ~ complete d (names l) -> parse_fields float_ok d s = Err.
Proof. exact (parse_named_missing float_ok d s l). Qed.
Print Assumptions marker_fields_missing.

(** One that is not declared, strict or not *)
Theorem marker_fields_unknown (float_ok : string -> bool) d s : anonymous_field d = false -> no_fields d = false -> unknown_argument float_ok d s -> parse_fields float_ok d s = Err.
Proof. exact (parse_named_unknown float_ok d s). Qed.
Print Assumptions marker_fields_unknown.

(** No arguments at all *)
Theorem marker_fields_none (float_ok : string -> bool) d : (parse_fields float_ok d "" = Ok [] /\ (d_strict d = true -> complete d [])) \/ (parse_fields float_ok d "" = Err /\ d_strict d = true /\ ~ complete d []).
Proof.
  rewrite (parse_empty float_ok d). destruct (d_strict d); cbn [andb]; [|left; split; [reflexivity|discriminate]]. destruct (forallb _ _) eqn:E; cbn [negb].
  - left. split; [reflexivity|]. intros _. apply complete_iff. exact E.
  - right. split; [reflexivity|]. split; [reflexivity|]. intros C. apply complete_iff in C. congruence.
Qed.
Print Assumptions marker_fields_none.

(** The arguments a struct declares: for each name the last exported field that has it. *)
Theorem marker_struct_arguments fs d : make_definition (OStruct fs) = Some d -> d_strict d = true /\ forall n g, declared d n g <->
  exists x f y a, exported fs = x ++ f :: y /\ arg_name f = n /\ ~ In n (map arg_name y) /\ argument_from_type (sf_type f) = Some a /\ g = field_of f a.
Proof. exact (make_definition_struct fs d). Qed.
Print Assumptions marker_struct_arguments.
(** Fields that cannot be arguments are an error. *)
Theorem marker_struct_bad fs f : In f fs -> sf_exported f = true -> (argument_from_type (sf_type f) = None \/ argument_from_type (sf_type f) = Some ARaw) -> make_definition (OStruct fs) = None.
Proof.
  intros I Ex H. cbn. destruct (load_struct fs []) as [l|] eqn:E; [|reflexivity]. exfalso. destruct (load_struct_spec fs [] l E) as (X & _). destruct (X f (proj2 (filter_In _ _ _) (conj I Ex))) as (a & Ha & Na). destruct H; congruence.
Qed.
Print Assumptions marker_struct_bad.

(** The name of an argument: the first part of the tag, or the field's name with a small first letter. *)
Theorem marker_argument_name f n l : sf_tag f = Some (join "," (n :: l)) -> Forall (fun x => has_char "," x = false) (n :: l) -> n <> "" -> arg_name f = n.
Proof.
  intros T F N. unfold arg_name, argument_info. rewrite T, split_join_char by (discriminate || exact F). cbn. destruct n; [contradiction|reflexivity].
Qed.
Print Assumptions marker_argument_name.
Theorem marker_argument_name_default f c s l : sf_name f = String c s -> sf_tag f = None \/ sf_tag f = Some (join "," ("" :: l)) -> Forall (fun x => has_char "," x = false) l -> arg_name f = String (lower c) s.
Proof.
  intros Nm T F. unfold arg_name, argument_info. destruct T as [-> | ->]; [cbn; rewrite Nm; reflexivity|].
  rewrite split_join_char by (discriminate || (constructor; [reflexivity|exact F])). cbn. rewrite Nm. reflexivity.
Qed.
Print Assumptions marker_argument_name_default.
(** An argument is optional if a later part of the tag is "optional" or the field is a pointer. *)
Theorem marker_argument_optional f n l a : sf_tag f = Some (join "," (n :: l)) -> Forall (fun x => has_char "," x = false) (n :: l) -> argument_from_type (sf_type f) = Some a ->
  (f_optional (field_of f a) = true <-> In "optional" l \/ exists u, sf_type f = GPtr u).
Proof.
  intros T F A. unfold field_of, argument_info. cbn [f_optional]. rewrite T, split_join_char by (discriminate || exact F). cbn [snd tl]. rewrite orb_true_iff, existsb_exists.
  assert (P : is_ptr a = true <-> exists u, sf_type f = GPtr u).
  { split.
    - destruct (sf_type f) as [| | | | | | |u|k u|u|]; cbn in A; try (injection A as <-; discriminate); try discriminate; eauto.
      + destruct (argument_from_type u); [injection A as <-; discriminate|discriminate].
      + destruct k; try discriminate. destruct (argument_from_type u); [injection A as <-; discriminate|discriminate].
    - intros [u E]. rewrite E in A. destruct u as [| | | | | | |w|k w|w|]; cbn in A; try (injection A as <-; reflexivity); try discriminate.
      + destruct (argument_from_type w); [injection A as <-; reflexivity|discriminate].
      + destruct k; try discriminate. destruct (argument_from_type w); [injection A as <-; reflexivity|discriminate]. }
  rewrite P. split; (intros [H|H]; [left|right; exact H]).
  - destruct H as (x & Hx & E). apply String.eqb_eq in E. subst. exact Hx.
  - exists "optional". split; [exact H|reflexivity].
Qed.
Print Assumptions marker_argument_optional.
(** The kind of value a field takes. *)
Theorem marker_argument_type t a : argument_from_type t = Some a <-> takes t a.
Proof.
  split.
  - revert a. induction t as [| | | | | | |u IH|k IHk u IH|u IH|]; cbn; intros a H; try (injection H as <-; constructor; fail); try discriminate.
    + destruct (argument_from_type u) as [b|]; [|discriminate]. injection H as <-. constructor. apply IH. reflexivity.
    + destruct k; try discriminate. destruct (argument_from_type u) as [b|]; [|discriminate]. injection H as <-. constructor. apply IH. reflexivity.
    + destruct u as [| | | | | | |w|k w|w|]; try discriminate; cbn in IH; try (injection H as <-; constructor; [constructor|exact I]).
      * destruct (argument_from_type w) as [b|]; [|discriminate]. injection H as <-. constructor; [apply IH; reflexivity|exact I].
      * destruct k; try discriminate. destruct (argument_from_type w) as [b|]; [|discriminate]. injection H as <-. constructor; [apply IH; reflexivity|exact I].
  - induction 1 as [| | | | | | |u b T IH|u b T IH|u b T IH N]; cbn; try reflexivity; try (rewrite IH; reflexivity).
    destruct u as [| | | | | | |w|k w|w|]; cbn in IH, N |- *; try contradiction; try (injection IH as <-; reflexivity); try discriminate.
    + destruct (argument_from_type w); [injection IH as <-; reflexivity|discriminate].
    + destruct k; try discriminate. destruct (argument_from_type w); [injection IH as <-; reflexivity|discriminate].
Qed.
Print Assumptions marker_argument_type.
(** Markers that take one value of any type: optional if their field is. *)
Theorem marker_any_definition fs d g : make_definition (OStruct fs) = Some d -> declared d "value" g ->
  exists d', make_any_definition (OStruct fs) = Some d' /\ d_strict d' = true /\ forall n h, declared d' n h <-> n = "" /\ h = mkField "Value" (f_arg g) (f_optional g).
Proof.
  intros E D. apply declared_iff in D. eexists. split; [unfold make_any_definition; rewrite E; cbn [option_map]; rewrite D; reflexivity|].
  split; [apply (make_definition_struct fs d E)|]. intros n h. rewrite declared_iff. cbn. destruct n; cbn; split; [intros [= <-]; auto|intros [_ ->]; reflexivity|discriminate|intros [C _]; discriminate].
Qed.
Print Assumptions marker_any_definition.

(** pkg/markers/parse_test.go:35-46 *)
Definition multi_struct : list sfield :=
  [ mkSField "Str" GString None true; mkSField "Int" GInt None true; mkSField "Bool" GBool None true; mkSField "Any" GAny None true; mkSField "PtrOpt" (GPtr GString) None true;
    mkSField "NormalOpt" GString (Some ",optional") true; mkSField "DiffNamed" GString (Some "other") true; mkSField "BothTags" GString (Some "both,optional") true;
    mkSField "Slice" (GSlice GInt) None true; mkSField "SliceOfSlice" (GSlice (GSlice GInt)) None true ].
Definition multi : definition := match make_definition (OStruct multi_struct) with Some d => d | None => anonymous AStr end.
Example multi_defined : make_definition (OStruct multi_struct) = Some multi. Proof. vm_compute. reflexivity. Qed.
(** pkg/markers/parse_test.go:98-155 *)
Example case_multi : parse_marker floats multi "+testing:multiField:str=some str,int=42,bool=true,any=21,ptrOpt=""optional string"",normalOpt=""other string"",other=""yet another"",both=""and one more"",slice=99;104;101;101;115;101,sliceOfSlice={{1,1},{2,3},{5,8}}" =
  Some (Ok [("Str", VStr "some str"); ("Int", VInt 42); ("Bool", VBool true); ("Any", VInt 21); ("PtrOpt", VPtr (VStr "optional string")); ("NormalOpt", VStr "other string"); ("DiffNamed", VStr "yet another"); ("BothTags", VStr "and one more");
    ("Slice", VList [VInt 99; VInt 104; VInt 101; VInt 101; VInt 115; VInt 101]); ("SliceOfSlice", slices)]).
Proof. vm_compute. reflexivity. Qed.
Example case_multi_missing : parse_marker floats multi "+testing:multiField:str=`hi`" = Some Err. Proof. vm_compute. reflexivity. Qed.
Example case_optional : option_map (fun d => parse_marker floats d "+testing:allOptional") (make_definition (OStruct [mkSField "OptStr" GString (Some ",optional") true; mkSField "OptInt" (GPtr GInt) None true])) = Some (Some (Ok [])).
Proof. vm_compute. reflexivity. Qed.
Example case_anonymous : option_map (fun d => parse_marker floats d "+testing:anonymous:literal=foo") (make_definition (OOther GString)) = Some (Some (Ok [("", VStr "foo")])) /\
  option_map (fun d => parse_marker floats d "+testing:anonymousOptional") (make_definition (OOther (GPtr GInt))) = Some (Some (Ok [])) /\
  option_map (fun d => parse_marker floats d "+testing:raw=this;totally,doesn't;get,parsed") (make_definition (OOther GRaw)) = Some (Some (Ok [("", VRaw "this;totally,doesn't;get,parsed")])) /\
  option_map (fun d => parse_marker floats d "+testing:custom={hi}") (make_any_definition (OStruct [mkSField "Value" GAny None true])) = Some (Some (Ok [("Value", VList [VStr "hi"])])) /\
  option_map (fun d => parse_marker floats d "+testing:empty") (make_definition (OStruct [])) = Some (Some (Ok [])).
Proof. vm_compute. repeat split. Qed.

(** The hypotheses of the theorems above *)
Definition shape : definition := mkDefinition [("size", mkField "Size" (AInt false) false); ("on", mkField "On" ABool true)] true.
Lemma digit_text c : digit_char c -> natural (String c "") (Z.of_nat (nat_of_ascii c) - 48).
Proof.
  intros H. split; [exact (digits_more "" 0 c digits_none H)|]. destruct (Nat.eq_dec (nat_of_ascii c) 48) as [E|N]; [left|right; exists c, ""; auto]. rewrite <- (ascii_nat_embedding c), E. reflexivity.
Qed.
Lemma word_name s : begins letter_char s -> all_chars word_char s -> name_text s.
Proof. intros A B. split; assumption. Qed.
Ltac plain_name := apply word_name; [eexists; eexists; split; [reflexivity|unfold letter_char; cbn; lia]|repeat (apply all_cons; split; [left; unfold letter_char; cbn; lia|]); intros [|] ? ? E; discriminate E].
Example shape_arguments : arguments floats shape "size=5,on=true" [("size", mkField "Size" (AInt false) false, VInt 5); ("on", mkField "On" ABool true, VBool true)].
Proof.
  apply (arguments_more floats shape "" "size" "" "" "5" "" (mkField "Size" (AInt false) false) (VInt 5) false "on=true").
  - apply spaces_nil.
  - plain_name.
  - apply spaces_nil.
  - exists [], [("on", mkField "On" ABool true)]. split; [reflexivity|intros []].
  - apply before_none.
  - apply denotes_int with 5%Z; [left; apply (digit_text "5"); unfold digit_char; cbn; lia|unfold in_int64; lia|reflexivity].
  - split; [apply spaces_nil|reflexivity].
  - apply (arguments_last floats shape "" "on" "" "" "true" (mkField "On" ABool true) (VBool true) false).
    + apply spaces_nil.
    + plain_name.
    + apply spaces_nil.
    + exists [("size", mkField "Size" (AInt false) false)], []. split; [reflexivity|]. cbn. intuition discriminate.
    + apply before_none.
    + constructor.
Qed.
Example shape_complete : anonymous_field shape = false /\ complete shape ["size"; "on"] /\ ~ complete shape ["on"].
Proof.
  split; [reflexivity|]. split.
  - intros name f [[= <- <-]|[[= <- <-]|[]]] _; cbn; auto.
  - intros C. destruct (C "size" (mkField "Size" (AInt false) false) (or_introl eq_refl) eq_refl) as [E|[]]; discriminate.
Qed.
Example shape_unknown : unknown_argument floats shape "siz=5".
Proof.
  apply (unknown_here floats shape "" "siz" "" "5"); [apply spaces_nil|plain_name|apply spaces_nil|]. intros f (x & y & E & N). destruct x as [|[k g] [|[k' g'] [|]]]; try discriminate; injection E as E; try discriminate.
Qed.
(** An argument given twice has its last value, silently. *)
Theorem marker_twice_refuted : parse_fields floats two "a=x,a=y" = Ok [("A", VStr "y")].
Proof. vm_compute. reflexivity. Qed.
Print Assumptions marker_twice_refuted.
(** White space after the last value is an error for named arguments, not for a single one. *)
Theorem marker_trailing_space_refuted : parse_fields floats shape "size=5 " = Err /\ parse_fields floats (anonymous (AInt false)) "5 " = Ok [("", VInt 5)].
Proof. vm_compute. auto. Qed.
Print Assumptions marker_trailing_space_refuted.
