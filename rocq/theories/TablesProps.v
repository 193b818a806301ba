(** * Property C58: the markers there are, and what their comments say. *)
From Coq Require Import List String Ascii Bool Arith ZArith QArith Permutation Sorting.Sorted Lia.
From Verif Require Import GoLib GoLibFacts HelpgenSpec HelpgenProofs2 MapFacts DocModel ScanModel RegistryModel RegistrySpec RegistryProofs RegistryProps ParseModel ParseSpec ScanProofs ParseProofs ParseGrammar ParseDefs ParseWrite
  ParseProps SchemaModel MarkModel MarkSpec MarkProps CrdModel CollectModel CollectProps TablesModel TablesSpec TablesProofs TablesProofs2 TablesProofs3 TablesProofs4.
From Verif Require RbacModel WebhookModel.
Import ListNotations.
Open Scope string_scope.
Open Scope list_scope.

(** No marker definition panics when the tool starts. *)
Theorem marker_tables_start g : initialised (table g) = true.
Proof. exact (initialised_all g). Qed.
Print Assumptions marker_tables_start.

(** The names are those listed, each on the targets listed, for the generators that run. *)
Theorem marker_known gs k t n : has_char "=" n = false ->
  ((exists d, lookup payload (registry_of gs) ("+" ++ n) t = Some d /\ d_name d = n /\ p_kind (d_payload d) = k) <-> known gs k t n).
Proof.
  intros H. rewrite known_definition. split.
  - intros (d & L & E & K). apply marker_lookup_plain in L; [|exact H]. apply registered_iff in L as (I & T & N). eauto.
  - intros (d & I & <- & <- & <-). exists d. split; [apply lookup_plain_name, I|auto].
Qed.
Print Assumptions marker_known.

(** A generator more never changes a marker that was understood. *)
Theorem marker_generator_added gs gs' raw t d : incl gs gs' -> lookup payload (registry_of gs) raw t = Some d -> lookup payload (registry_of gs') raw t = Some d.
Proof. exact (lookup_more gs gs' raw t d). Qed.
Print Assumptions marker_generator_added.
(** Nor does their order, or running one twice. *)
Theorem marker_generator_order gs gs' raw t : (forall g, In g gs <-> In g gs') -> lookup payload (registry_of gs) raw t = lookup payload (registry_of gs') raw t.
Proof.
  intros H. destruct (lookup payload (registry_of gs) raw t) as [d|] eqn:E.
  - symmetry. apply (lookup_more gs); [intros g; apply H|exact E].
  - destruct (lookup payload (registry_of gs') raw t) as [d|] eqn:E'; [|reflexivity]. rewrite (lookup_more gs' gs raw t d) in E; [discriminate|intros g; apply H|exact E'].
Qed.
Print Assumptions marker_generator_order.

Section Comments.
Variable fval : string -> option Q.
Variable json_read : string -> option json.
Notation read := (parse_value fval json_read).
Notation values_at gs t ms := (values payload (registry_of gs) tvalue read t ms [] []).
(** The comment of m says that the marker nv has a value *)
Definition tells (gs : list generator) (t : target) (m : marker) (nv : string * tvalue) : Prop :=
  exists k text, known gs k t (fst nv) /\ says fval json_read k (fst nv) text (snd nv) /\ comment_of m text.

(** Comments that say something: their values, in order, and no error. *)
Theorem marker_comments_read gs t ms nvs : Forall2 (tells gs t) ms nvs ->
  (forall n, named tvalue (fst (values_at gs t ms)) n = map snd (filter (fun nv => String.eqb (fst nv) n) nvs)) /\ snd (values_at gs t ms) = [].
Proof.
  intros F. split.
  - intros n. rewrite (proj1 (values_in_order payload tvalue (registry_of gs) read t ms n)). induction F as [|m [n0 v] ms nvs (k & text & K & S & C) F IH]; [reflexivity|]. cbn [flat_map filter map fst snd] in *. rewrite IH.
    destruct (comment_read fval json_read gs k t n0 text v m K S C) as (A & B & _). destruct (String.eqb_spec n0 n) as [<-|N]; [rewrite A; reflexivity|rewrite B by congruence; reflexivity].
  - rewrite (proj2 (values_in_order payload tvalue (registry_of gs) read t ms "")). induction F as [|m [n0 v] ms nvs (k & text & K & S & C) F IH]; [reflexivity|]. cbn [flat_map]. rewrite IH.
    destruct (comment_read fval json_read gs k t n0 text v m K S C) as (_ & _ & ->). reflexivity.
Qed.
(** They are collected as markers. *)
Theorem marker_comment_collected m text : comment_of m text -> is_marker_comment (c_text (m_comment m)) = true.
Proof. exact (comment_collected m text). Qed.
(** A comment without the name of a marker known there: ignored, without an error. *)
Theorem marker_comment_ignored gs t m text n : comment_of m text -> (forall k n, known gs k t n -> ~ has_name n text) ->
  values_of payload tvalue (registry_of gs) read t n m = [] /\ unparsed payload tvalue (registry_of gs) read t m = [].
Proof.
  intros C H. unfold values_of, unparsed. rewrite (comment_text m text C). destruct (lookup _ _ _ _) as [d|] eqn:L; [|auto]. exfalso.
  destruct (lookup_found gs _ t d L) as (I & T & c & F). apply (H (p_kind (d_payload d)) (d_name d)); [apply known_definition; exists d; auto|].
  destruct F as [E|[(rest & E)|(a & rest & E & A)]]; injection E as _ E; [left; exact E|right; left; exists rest; exact E|right; right; exists a, rest; split; [exact E|exact A]].
Qed.
(** Whatever the comment, a value is one of the marker that it names. *)
Theorem marker_value_sound gs t n v m : In v (values_of payload tvalue (registry_of gs) read t n m) ->
  exists k, value_kind v = Some k /\ known gs k t n /\ exists c text, marker_text m = String c text /\ has_name n text.
Proof.
  intros H. destruct (value_found fval json_read gs t n v m H) as (k & V & K & c & F). exists k. split; [exact V|]. split; [exact K|]. exists c.
  destruct F as [E|[(rest & E)|(a & rest & E & A)]]; eexists; (split; [exact E|]); [left; reflexivity|right; left; exists rest; reflexivity|right; right; exists a, rest; auto].
Qed.
(** Every value of the right size can be written. *)
Theorem marker_writable k n v : expressible fval k v -> exists text, says fval json_read k n text v.
Proof. exact (all_written fval json_read k n v). Qed.
(** A comment above a type, not part of its doc, is the package's exactly if its marker is one for packages only. *)
Theorem marker_moved gs k n text v m : known gs k DescribesPackage n -> says fval json_read k n text v -> comment_of m text ->
  (stays payload (registry_of gs) m = false <-> m_godoc m = false /\ forall k', ~ known gs k' DescribesType n).
Proof. exact (moved_iff fval json_read gs k n text v m). Qed.

(** From the comment to the schema: reported, or there. *)
Theorem marker_comment_applied o f gs t ms s m k n text sm : is_order o -> sorts f ->
  let set := schema_set (fst (values_at gs t ms)) in one_each set -> In m ms -> known gs k t n -> says fval json_read k n text (TvSchema sm) -> comment_of m text ->
  let r := apply_markers o f set s in
  In n (snd r) \/ (if has_prefix items_prefix n then exists it more, s_items (fst r) = Some (Some it, more) /\ carries sm (s_kw it) else carries sm (s_kw (fst r))).
Proof.
  intros O F set1 Oe I K S C. assert (E := proj1 (values_in_order payload tvalue (registry_of gs) read t ms n)). destruct (comment_read fval json_read gs k t n text (TvSchema sm) m K S C) as (A & _).
  assert (In (TvSchema sm) (named tvalue (fst (values_at gs t ms)) n)) as H by (rewrite E; apply in_flat_map; exists m; split; [exact I|rewrite A; left; reflexivity]).
  unfold named in H. destruct (mget String.eqb (fst (values_at gs t ms)) n) as [l|] eqn:G; [|contradiction]. apply (mget_in _ _ _ String.eqb_eq) in G.
  apply (marker_not_lost o f set1 s n (map schema_value l) sm O F Oe).
  - unfold set1, schema_set. apply in_map_iff. exists (n, l). auto.
  - apply in_map_iff. exists (TvSchema sm). auto.
Qed.
End Comments.
Print Assumptions marker_comments_read.
Print Assumptions marker_comment_collected.
Print Assumptions marker_comment_ignored.
Print Assumptions marker_value_sound.
Print Assumptions marker_writable.
Print Assumptions marker_moved.
Print Assumptions marker_comment_applied.

(** ** Cases *)
Definition no_floats (s : string) : option Q := None.
Definition no_json (s : string) : option json := None.
Definition comment (text : string) : marker := mkMarker (mkComment 0 ("// " ++ text)) true.
Definition all : list generator := [GenCrd; GenRbac; GenObject; GenApply; GenWebhook].
Definition read_at (t : target) (texts : list string) := values payload (registry_of all) tvalue (parse_value no_floats no_json) t (map comment texts) [] [].
Lemma comment_is text : trim_space (" +" ++ text) = ("+" ++ text)%string -> comment_of (comment ("+" ++ text)) text.
Proof. intros H. exists (" +" ++ text)%string. split; [reflexivity|]. apply trimmed_iff, H. Qed.

Example case_max_length : tells no_floats no_json all DescribesField (comment "+kubebuilder:validation:MaxLength=5") ("kubebuilder:validation:MaxLength", TvSchema (MMaxLength 5)).
Proof.
  exists TMaxLength, "kubebuilder:validation:MaxLength=5". split; [|split].
  - exists GenCrd. split; [cbn; auto|]. apply spelled_schema; [auto|]. apply (spelled_validation TMaxLength "MaxLength"); [cbn; tauto|auto].
  - apply (says_one no_floats no_json TMaxLength "kubebuilder:validation:MaxLength" (AInt false) "" "5" (VInt 5) false); [reflexivity| |split; [apply spaces_nil|auto]|constructor].
    apply (denotes_int _ false "5" 5); [|unfold in_int64; lia|reflexivity]. left. split.
    + apply (digits_more "" 0 "5"%char); [constructor|]. unfold digit_char. cbn. lia.
    + right. exists "5"%char, "". split; [reflexivity|]. split; [unfold digit_char; cbn; lia|discriminate].
  - apply comment_is. reflexivity.
Qed.
Example case_rule : exists text, says no_floats no_json TRule "kubebuilder:rbac" text (TvRule (RbacModel.mkRule [""; "apps"] ["pods"] [] ["get"; "list"] [] "")).
Proof. apply marker_writable, expressible_rule. Qed.
Example case_rule_text : read_at DescribesPackage ["+kubebuilder:rbac:groups="""";apps,resources=pods,verbs=get;list"; "+kubebuilder:rbac:urls=/healthz,verbs={get}"] =
  ([("kubebuilder:rbac", [TvRule (RbacModel.mkRule [""; "apps"] ["pods"] [] ["get"; "list"] [] ""); TvRule (RbacModel.mkRule [] [] [] ["get"] ["/healthz"] "")])], []).
Proof. vm_compute. reflexivity. Qed.
Example case_field : read_at DescribesField ["+optional"; "+kubebuilder:validation:MaxLength=5"; "+kubebuilder:validation:Pattern=`^a$`"; "+kubebuilder:validation:items:MinLength=1"; "+kubebuilder:default={a: 1, b: ""x""}"; "+nullable"; "+listMapKey=a"; "+listMapKey=b"] =
  ([("optional", [TvUnit]); ("kubebuilder:validation:MaxLength", [TvSchema (MMaxLength 5)]); ("kubebuilder:validation:Pattern", [TvSchema (MPattern "^a$")]); ("kubebuilder:validation:items:MinLength", [TvSchema (MMinLength 1)]);
    ("kubebuilder:default", [TvSchema (MDefault (JObj [("a", JNum 1); ("b", JStr "x")]))]); ("nullable", [TvSchema MNullable]); ("listMapKey", [TvSchema (MListMapKey "a"); TvSchema (MListMapKey "b")])], []).
Proof. vm_compute. reflexivity. Qed.
Example case_type : read_at DescribesType ["+kubebuilder:object:root=true"; "+kubebuilder:subresource:status"; "+kubebuilder:resource:path=foos,scope=Cluster,shortName=fo;f"; "+kubebuilder:deprecatedversion";
    "+kubebuilder:printcolumn:name=""Age"",type=date,JSONPath=`.metadata.creationTimestamp`,priority=1"] =
  ([("kubebuilder:object:root", [TvBool true]); ("kubebuilder:subresource:status", [TvCrd CStatus]); ("kubebuilder:resource", [TvCrd (CResource (mkResource "foos" ["fo"; "f"] [] "" "Cluster"))]);
    ("kubebuilder:deprecatedversion", [TvCrd (CDeprecated None)]); ("kubebuilder:printcolumn", [TvCrd (CColumn (mkColumn "Age" "date" ".metadata.creationTimestamp" "" "" 1))])], []).
Proof. vm_compute. reflexivity. Qed.
Example case_errors : map c_text (snd (read_at DescribesField ["+kubebuilder:validation:MaxLength=x"; "+kubebuilder:validation:MaxLength"; "+optional=false"; "+kubebuilder:validation:XValidation:message=m"])) =
  ["// +kubebuilder:validation:MaxLength=x"; "// +kubebuilder:validation:MaxLength"; "// +optional=false"; "// +kubebuilder:validation:XValidation:message=m"].
Proof. vm_compute. reflexivity. Qed.
(** "kubebuilder:validation:Optional" is for packages and fields, not types *)
Example case_moved : stays payload (registry_of all) (mkMarker (mkComment 0 "// +kubebuilder:validation:Optional") false) = false /\
  stays payload (registry_of all) (mkMarker (mkComment 0 "// +kubebuilder:object:generate=true") false) = true.
Proof. split; vm_compute; reflexivity. Qed.

(** ** What does not hold *)
(** A name that is misspelt, has a space after the '+' or before the '=', or stands where the marker is not known: no value and no error. *)
Theorem marker_typo_refuted :
  read_at DescribesField ["+kubebuilder:validation:Maxlength=5"; "+kubebuilder:validation:MaxLength = 5"; "+ optional"; "+Optional"; "+kubebuilder:validation:nullable"] = ([], []) /\
  read_at DescribesType ["+nullable"; "+kubebuilder:default=1"; "+optional"; "+kubebuilder:rbac:groups=apps,verbs=get"; "+groupName=x"] = ([], []).
Proof. split; vm_compute; reflexivity. Qed.
Print Assumptions marker_typo_refuted.
(** One part too many in the name of a marker with one value is dropped. *)
Theorem marker_extra_part_refuted : read_at DescribesField ["+kubebuilder:validation:MaxLength:maximum=5"] = ([("kubebuilder:validation:MaxLength", [TvSchema (MMaxLength 5)])], []) /\
  read_at DescribesPackage ["+k8s:deepcopy-gen:interfaces=x.Y"] = ([("k8s:deepcopy-gen", [TvRaw "x.Y"])], []).
Proof. split; vm_compute; reflexivity. Qed.
Print Assumptions marker_extra_part_refuted.
(** The default that refers to a constant is read as no default. *)
Theorem marker_default_ref_refuted : read_at DescribesField ["+default=ref(Foo)"] = ([("default", [TvSchema (MKubeDefault JNull)])], []).
Proof. vm_compute. reflexivity. Qed.
Print Assumptions marker_default_ref_refuted.
(** A marker is known only if a generator that has it runs: those of one generator are no errors to another. *)
Theorem marker_other_generator_refuted : exists n d, lookup payload (registry_of [GenWebhook]) n DescribesPackage = Some d /\ lookup payload (registry_of [GenRbac]) n DescribesPackage = None.
Proof. exists "+kubebuilder:webhookconfiguration:mutating=true". eexists. split; vm_compute; reflexivity. Qed.
Print Assumptions marker_other_generator_refuted.
