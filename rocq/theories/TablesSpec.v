(** * The markers there are, where they may be written, and what their texts say. *)
From Coq Require Import List String Ascii Bool ZArith QArith Permutation Sorting.Sorted.
From Verif Require Import GoLib SchemaModel MarkModel CrdModel RegistryModel ParseModel ParseSpec CollectModel HelpgenSpec TablesModel.
From Verif Require RbacModel WebhookModel.
Import ListNotations.
Open Scope string_scope.
Open Scope list_scope.

(** ** Names *)
(** kubebuilder:validation:<word> and kubebuilder:validation:items:<word> *)
Definition words : list (kind * string) :=
  [(TMaximum, "Maximum"); (TMinimum, "Minimum"); (TExclusiveMaximum, "ExclusiveMaximum"); (TExclusiveMinimum, "ExclusiveMinimum"); (TMultipleOf, "MultipleOf");
   (TMaxProperties, "MaxProperties"); (TMinProperties, "MinProperties"); (TMaxLength, "MaxLength"); (TMinLength, "MinLength"); (TPattern, "Pattern");
   (TMaxItems, "MaxItems"); (TMinItems, "MinItems"); (TUniqueItems, "UniqueItems"); (TEnum, "Enum"); (TFormat, "Format"); (TType, "Type");
   (TXPreserveUnknownFields, "XPreserveUnknownFields"); (TXEmbeddedResource, "XEmbeddedResource"); (TXIntOrString, "XIntOrString"); (TXValidation, "XValidation")].
Inductive spelled : generator -> kind -> target -> string -> Prop :=
| spelled_schema g k t n : g = GenCrd \/ g = GenSchemapatch -> crd_spelled k t n -> spelled g k t n
| spelled_rbac : spelled GenRbac TRule DescribesPackage "kubebuilder:rbac"
| spelled_webhook k n : In (k, n) [(TConfig, "kubebuilder:webhook"); (TWebhookConfig, "kubebuilder:webhookconfiguration")] -> spelled GenWebhook k DescribesPackage n
| spelled_object k t n : In (k, t, n) [(TBool, DescribesPackage, "kubebuilder:object:generate"); (TBool, DescribesType, "kubebuilder:object:generate");
    (TBool, DescribesType, "kubebuilder:object:root"); (TRaw, DescribesPackage, "k8s:deepcopy-gen"); (TRaw, DescribesType, "k8s:deepcopy-gen");
    (TText, DescribesType, "k8s:deepcopy-gen:interfaces")] -> spelled GenObject k t n
| spelled_apply k t n : In (k, t, n) [(TResource, DescribesType, "kubebuilder:resource"); (TBool, DescribesPackage, "kubebuilder:ac:generate");
    (TBool, DescribesType, "kubebuilder:ac:generate"); (TText, DescribesPackage, "kubebuilder:ac:output:package")] -> spelled GenApply k t n
with crd_spelled : kind -> target -> string -> Prop :=
| spelled_validation k w t : In (k, w) words -> t = DescribesField \/ t = DescribesType -> crd_spelled k t ("kubebuilder:validation:" ++ w)
| spelled_items k w t : In (k, w) words -> t = DescribesField \/ t = DescribesType -> crd_spelled k t ("kubebuilder:validation:items:" ++ w)
| spelled_both k n t : In (k, n) [(TXPreserveUnknownFields, "kubebuilder:pruning:PreserveUnknownFields"); (TListType, "listType"); (TListMapKey, "listMapKey");
    (TMapType, "mapType"); (TStructType, "structType")] -> t = DescribesField \/ t = DescribesType -> crd_spelled k t n
| spelled_field k n : In (k, n) [(TUnit, "required"); (TUnit, "optional"); (TUnit, "kubebuilder:validation:Required"); (TUnit, "kubebuilder:validation:Optional");
    (TNullable, "nullable"); (TDefault, "kubebuilder:default"); (TKubernetesDefault, "default"); (TExample, "kubebuilder:example"); (TTitle, "kubebuilder:title");
    (TXEmbeddedResource, "kubebuilder:validation:EmbeddedResource"); (TSchemaless, "kubebuilder:validation:Schemaless")] -> crd_spelled k DescribesField n
| spelled_type k n : In (k, n) [(TSubresourceStatus, "kubebuilder:subresource:status"); (TSubresourceScale, "kubebuilder:subresource:scale");
    (TPrintColumn, "kubebuilder:printcolumn"); (TResource, "kubebuilder:resource"); (TStorageVersion, "kubebuilder:storageversion"); (TSkipVersion, "kubebuilder:skipversion");
    (TUnservedVersion, "kubebuilder:unservedversion"); (TDeprecatedVersion, "kubebuilder:deprecatedversion"); (TMetadata, "kubebuilder:metadata");
    (TSelectableField, "kubebuilder:selectablefield")] -> crd_spelled k DescribesType n
| spelled_package k n : In (k, n) [(TText, "groupName"); (TText, "versionName"); (TUnit, "kubebuilder:validation:Optional"); (TUnit, "kubebuilder:validation:Required");
    (TUnit, "kubebuilder:skip")] -> crd_spelled k DescribesPackage n.
(** A marker of one of the generators that run *)
Definition known (gs : list generator) (k : kind) (t : target) (n : string) : Prop := exists g, In g gs /\ spelled g k t n.

(** ** Texts *)
(** Markers without arguments *)
Inductive flag : kind -> tvalue -> Prop :=
| flag_preserve : flag TXPreserveUnknownFields (TvSchema MPreserve)
| flag_embedded : flag TXEmbeddedResource (TvSchema MEmbedded)
| flag_int_or_string : flag TXIntOrString (TvSchema MIntOrString)
| flag_nullable : flag TNullable (TvSchema MNullable)
| flag_schemaless : flag TSchemaless TvSchemaless
| flag_status : flag TSubresourceStatus (TvCrd CStatus)
| flag_storage : flag TStorageVersion (TvCrd CStorage)
| flag_skip : flag TSkipVersion (TvCrd CSkip)
| flag_unserved : flag TUnservedVersion (TvCrd CUnserved)
| flag_unit : flag TUnit TvUnit.

(** Markers with one value *)
Definition takes_one (k : kind) : option arg :=
  match k with
  | TMaximum | TMinimum | TMultipleOf => Some ANum
  | TExclusiveMaximum | TExclusiveMinimum | TUniqueItems | TBool => Some ABool
  | TMinProperties | TMaxProperties | TMaxLength | TMinLength | TMaxItems | TMinItems => Some (AInt false)
  | TPattern | TFormat | TType | TListMapKey | TListType | TMapType | TStructType | TText => Some AStr
  | TEnum => Some (ASlice AAny)
  | TDefault | TExample | TTitle => Some AAny
  | _ => None
  end.

Section Says.
  (** The numbers that texts stand for, and JSON texts *)
  Variable fval : string -> option Q.
  Variable json_read : string -> option json.

  (** Keys in ascending order *)
  Definition key_order {A B : Type} (x : string * A) (y : string * B) : Prop := str_ltb (fst x) (fst y) = true.
  Inductive as_json : value -> json -> Prop :=
  | as_int z : as_json (VInt z) (JNum (inject_Z z))
  | as_num s q : fval s = Some q -> as_json (VNum s) (JNum q)
  | as_str s : as_json (VStr s) (JStr s)
  | as_bool b : as_json (VBool b) (JBool b)
  | as_list l js : as_jsons l js -> as_json (VList l) (JArr js)
  | as_map m m' js : Permutation m m' -> StronglySorted key_order m' -> as_members m' js -> as_json (VMap m) (JObj js)
  with as_jsons : list value -> list json -> Prop :=
  | as_nil : as_jsons [] []
  | as_cons v j l js : as_json v j -> as_jsons l js -> as_jsons (v :: l) (j :: js)
  with as_members : list (string * value) -> list (string * json) -> Prop :=
  | as_members_nil : as_members [] []
  | as_member k v j l js : as_json v j -> as_members l js -> as_members ((k, v) :: l) ((k, j) :: js).

  Inductive one_value : kind -> value -> tvalue -> Prop :=
  | one_maximum s q : fval s = Some q -> one_value TMaximum (VNum s) (TvSchema (MMaximum q))
  | one_minimum s q : fval s = Some q -> one_value TMinimum (VNum s) (TvSchema (MMinimum q))
  | one_multiple s q : fval s = Some q -> one_value TMultipleOf (VNum s) (TvSchema (MMultipleOf q))
  | one_excl_max b : one_value TExclusiveMaximum (VBool b) (TvSchema (MExclMax b))
  | one_excl_min b : one_value TExclusiveMinimum (VBool b) (TvSchema (MExclMin b))
  | one_unique b : one_value TUniqueItems (VBool b) (TvSchema (MUniqueItems b))
  | one_min_props z : one_value TMinProperties (VInt z) (TvSchema (MMinProps z))
  | one_max_props z : one_value TMaxProperties (VInt z) (TvSchema (MMaxProps z))
  | one_max_length z : one_value TMaxLength (VInt z) (TvSchema (MMaxLength z))
  | one_min_length z : one_value TMinLength (VInt z) (TvSchema (MMinLength z))
  | one_max_items z : one_value TMaxItems (VInt z) (TvSchema (MMaxItems z))
  | one_min_items z : one_value TMinItems (VInt z) (TvSchema (MMinItems z))
  | one_pattern s : one_value TPattern (VStr s) (TvSchema (MPattern s))
  | one_format s : one_value TFormat (VStr s) (TvSchema (MFormat s))
  | one_type s : one_value TType (VStr s) (TvSchema (MType s))
  | one_enum l js : as_jsons l js -> one_value TEnum (VList l) (TvSchema (MEnum js))
  | one_default v j : as_json v j -> one_value TDefault v (TvSchema (MDefault j))
  | one_example v j : as_json v j -> one_value TExample v (TvSchema (MExample j))
  | one_title v j : as_json v j -> one_value TTitle v (TvSchema (MTitle j))
  | one_list_type s : one_value TListType (VStr s) (TvSchema (MListType s))
  | one_list_map_key s : one_value TListMapKey (VStr s) (TvSchema (MListMapKey s))
  | one_map_type s : one_value TMapType (VStr s) (TvSchema (MMapType s))
  | one_struct_type s : one_value TStructType (VStr s) (TvSchema (MStructType s))
  | one_text s : one_value TText (VStr s) (TvText s)
  | one_bool b : one_value TBool (VBool b) (TvBool b).

  (** Markers with named arguments: name, type, required? *)
  Definition parameters (k : kind) : list (string * arg * bool) :=
    match k with
    | TXValidation => [("rule", AStr, true); ("message", AStr, false); ("messageExpression", AStr, false); ("reason", AStr, false); ("fieldPath", AStr, false); ("optionalOldSelf", APtr ABool, false)]
    | TSubresourceScale => [("specpath", AStr, true); ("statuspath", AStr, true); ("selectorpath", APtr AStr, false)]
    | TPrintColumn => [("name", AStr, true); ("type", AStr, true); ("JSONPath", AStr, true); ("description", AStr, false); ("format", AStr, false); ("priority", AInt true, false)]
    | TResource => [("path", AStr, false); ("shortName", ASlice AStr, false); ("categories", ASlice AStr, false); ("singular", AStr, false); ("scope", AStr, false)]
    | TDeprecatedVersion => [("warning", APtr AStr, false)]
    | TMetadata => [("annotations", ASlice AStr, false); ("labels", ASlice AStr, false)]
    | TSelectableField => [("JSONPath", AStr, true)]
    | TRule => [("groups", ASlice AStr, false); ("resources", ASlice AStr, false); ("resourceNames", ASlice AStr, false); ("verbs", ASlice AStr, true); ("urls", ASlice AStr, false); ("namespace", AStr, false)]
    | TConfig => [("mutating", ABool, true); ("failurePolicy", AStr, true); ("matchPolicy", AStr, false); ("sideEffects", AStr, false); ("timeoutSeconds", AInt false, false);
        ("groups", ASlice AStr, true); ("resources", ASlice AStr, true); ("verbs", ASlice AStr, true); ("versions", ASlice AStr, true); ("name", AStr, true);
        ("serviceName", AStr, false); ("serviceNamespace", AStr, false); ("path", AStr, false); ("servicePort", APtr (AInt true), false); ("webhookVersions", ASlice AStr, false);
        ("admissionReviewVersions", ASlice AStr, true); ("reinvocationPolicy", AStr, false); ("url", AStr, false)]
    | TWebhookConfig => [("mutating", ABool, true); ("name", AStr, false)]
    | _ => []
    end.
  (** name=value,name=value *)
  Inductive args_text (ps : list (string * arg * bool)) : string -> list (string * value) -> Prop :=
  | args_last w n w1 w2 s a r v b : spaces w -> spaces w1 -> In (n, a, r) ps -> before w2 s -> denotes (float_ok fval) a s v b ->
      args_text ps (w ++ n ++ w1 ++ "=" ++ w2 ++ s) [(n, v)]
  | args_more w n w1 w2 s w3 a r v b rest l : spaces w -> spaces w1 -> In (n, a, r) ps -> before w2 s -> denotes (float_ok fval) a s v b -> after b w3 ->
      args_text ps rest l -> args_text ps (w ++ n ++ w1 ++ "=" ++ w2 ++ s ++ w3 ++ "," ++ rest) ((n, v) :: l).
  Definition all_required (ps : list (string * arg * bool)) (l : list (string * value)) : Prop := forall n a, In (n, a, true) ps -> In n (map fst l).
  (** The value of an argument: the last one given, or else nothing *)
  Definition the_str (l : list (string * value)) (n : string) (s : string) : Prop := last_value l n (VStr s) \/ (~ In n (map fst l) /\ s = "").
  Definition the_int (l : list (string * value)) (n : string) (z : Z) : Prop := last_value l n (VInt z) \/ (~ In n (map fst l) /\ z = 0%Z).
  Definition the_bool (l : list (string * value)) (n : string) (b : bool) : Prop := last_value l n (VBool b) \/ (~ In n (map fst l) /\ b = false).
  Definition the_strs (l : list (string * value)) (n : string) (ss : list string) : Prop := last_value l n (VList (map VStr ss)) \/ (~ In n (map fst l) /\ ss = []).
  Definition the_ptr {A} (mk : A -> value) (l : list (string * value)) (n : string) (o : option A) : Prop :=
    match o with Some x => last_value l n (VPtr (mk x)) | None => ~ In n (map fst l) end.
  Inductive named_value (l : list (string * value)) : kind -> tvalue -> Prop :=
  | named_xvalidation a b c d e f : the_str l "rule" a -> the_str l "message" b -> the_str l "messageExpression" c -> the_str l "reason" d -> the_str l "fieldPath" e ->
      the_ptr VBool l "optionalOldSelf" f -> named_value l TXValidation (TvSchema (MXValidation (mkVrule a b c d e f)))
  | named_scale a b c : the_str l "specpath" a -> the_str l "statuspath" b -> the_ptr VStr l "selectorpath" c -> named_value l TSubresourceScale (TvCrd (CScale (mkScale a b c)))
  | named_column a b c d e f : the_str l "name" a -> the_str l "type" b -> the_str l "JSONPath" c -> the_str l "description" d -> the_str l "format" e -> the_int l "priority" f ->
      named_value l TPrintColumn (TvCrd (CColumn (mkColumn a b c d e f)))
  | named_resource a b c d e : the_str l "path" a -> the_strs l "shortName" b -> the_strs l "categories" c -> the_str l "singular" d -> the_str l "scope" e ->
      named_value l TResource (TvCrd (CResource (mkResource a b c d e)))
  | named_deprecated a : the_ptr VStr l "warning" a -> named_value l TDeprecatedVersion (TvCrd (CDeprecated a))
  | named_metadata a b : the_strs l "annotations" a -> the_strs l "labels" b -> named_value l TMetadata (TvCrd (CMetadata a b))
  | named_selectable a : the_str l "JSONPath" a -> named_value l TSelectableField (TvCrd (CSelectable a))
  | named_rule g r n v u s : the_strs l "groups" g -> the_strs l "resources" r -> the_strs l "resourceNames" n -> the_strs l "verbs" v -> the_strs l "urls" u -> the_str l "namespace" s ->
      named_value l TRule (TvRule (RbacModel.mkRule g r n v u s))
  | named_webhook h : the_bool l "mutating" (WebhookModel.h_mutating h) -> the_str l "failurePolicy" (WebhookModel.h_failure h) -> the_str l "matchPolicy" (WebhookModel.h_match h) ->
      the_str l "sideEffects" (WebhookModel.h_side h) -> the_int l "timeoutSeconds" (WebhookModel.h_timeout h) -> the_strs l "groups" (WebhookModel.h_groups h) ->
      the_strs l "resources" (WebhookModel.h_resources h) -> the_strs l "verbs" (WebhookModel.h_verbs h) -> the_strs l "versions" (WebhookModel.h_versions h) ->
      the_str l "name" (WebhookModel.h_name h) -> the_str l "serviceName" (WebhookModel.h_service h) -> the_str l "serviceNamespace" (WebhookModel.h_namespace h) ->
      the_str l "path" (WebhookModel.h_path h) -> the_ptr VInt l "servicePort" (WebhookModel.h_port h) -> the_strs l "webhookVersions" (WebhookModel.h_whversions h) ->
      the_strs l "admissionReviewVersions" (WebhookModel.h_reviews h) -> the_str l "reinvocationPolicy" (WebhookModel.h_reinvocation h) -> the_str l "url" (WebhookModel.h_url h) ->
      named_value l TConfig (TvHook h)
  | named_config w : the_bool l "mutating" (WebhookModel.wc_mutating w) -> the_str l "name" (WebhookModel.wc_name w) -> named_value l TWebhookConfig (TvHookConfig w).

  (** +default=ref(...) *)
  Definition ref_text (s : string) : Prop := exists w r, s = (w ++ "ref(" ++ r)%string /\ all_space w.

  (** [says k n s v]: the text s after the '+' gives the marker n of kind k the value v *)
  Inductive says : kind -> string -> string -> tvalue -> Prop :=
  | says_flag k n v : flag k v -> says k n n v
  | says_one k n a w s x b v : takes_one k = Some a -> denotes (float_ok fval) a s x b -> before w s -> one_value k x v -> says k n (n ++ "=" ++ w ++ s) v
  | says_args k n s l v : args_text (parameters k) s l -> all_required (parameters k) l -> named_value l k v -> says k n (n ++ ":" ++ s) v
  | says_no_args k n v : all_required (parameters k) [] -> named_value [] k v -> says k n n v
  | says_default n s j : json_read s = Some j -> ~ ref_text s -> says TKubernetesDefault n (n ++ "=" ++ s) (TvSchema (MKubeDefault j))
  | says_default_ref n s : ref_text s -> says TKubernetesDefault n (n ++ "=" ++ s) (TvSchema (MKubeDefault JNull))
  | says_group s : s = "groupName" \/ s = "groupName=" -> says TText "groupName" s (TvText "").

  (** The values that can be written: numbers of the sizes of the Go types, any strings, lists and rules *)
  Inductive expressible : kind -> tvalue -> Prop :=
  | expressible_flag k v : flag k v -> expressible k v
  | expressible_one k a x v : takes_one k = Some a -> written (float_ok fval) a x -> one_value k x v -> expressible k v
  | expressible_xvalidation r : expressible TXValidation (TvSchema (MXValidation r))
  | expressible_scale s : expressible TSubresourceScale (TvCrd (CScale s))
  | expressible_column c : (- 2 ^ 31 <= co_priority c < 2 ^ 31)%Z -> expressible TPrintColumn (TvCrd (CColumn c))
  | expressible_resource r : expressible TResource (TvCrd (CResource r))
  | expressible_deprecated w : expressible TDeprecatedVersion (TvCrd (CDeprecated w))
  | expressible_metadata a l : expressible TMetadata (TvCrd (CMetadata a l))
  | expressible_selectable p : expressible TSelectableField (TvCrd (CSelectable p))
  | expressible_rule r : expressible TRule (TvRule r)
  | expressible_hook h : in_int64 (WebhookModel.h_timeout h) -> (forall z, WebhookModel.h_port h = Some z -> (- 2 ^ 31 <= z < 2 ^ 31)%Z) -> expressible TConfig (TvHook h)
  | expressible_config w : expressible TWebhookConfig (TvHookConfig w).
End Says.

(** A comment that is the marker with this text *)
Definition comment_of (m : marker) (text : string) : Prop := exists body, c_text (m_comment m) = ("//" ++ body)%string /\ trimmed body ("+" ++ text).

(** The text has the name n: alone, before '=', or with one more part before '=' *)
Definition has_name (n text : string) : Prop :=
  text = n \/ (exists rest, text = (n ++ "=" ++ rest)%string) \/ exists a rest, text = (n ++ ":" ++ a ++ "=" ++ rest)%string /\ has_char "=" a = false /\ has_char ":" a = false.

(** ** The kind of a value *)
Definition value_kind (v : tvalue) : option kind :=
  match v with
  | TvSchema m => Some
      match m with
      | MMaximum _ => TMaximum | MMinimum _ => TMinimum | MExclMax _ => TExclusiveMaximum | MExclMin _ => TExclusiveMinimum | MMultipleOf _ => TMultipleOf
      | MMinProps _ => TMinProperties | MMaxProps _ => TMaxProperties | MMaxLength _ => TMaxLength | MMinLength _ => TMinLength | MPattern _ => TPattern
      | MMaxItems _ => TMaxItems | MMinItems _ => TMinItems | MUniqueItems _ => TUniqueItems | MEnum _ => TEnum | MFormat _ => TFormat | MType _ => TType
      | MPreserve => TXPreserveUnknownFields | MEmbedded => TXEmbeddedResource | MIntOrString => TXIntOrString | MXValidation _ => TXValidation
      | MNullable => TNullable | MDefault _ => TDefault | MKubeDefault _ => TKubernetesDefault | MTitle _ => TTitle | MExample _ => TExample
      | MListType _ => TListType | MListMapKey _ => TListMapKey | MMapType _ => TMapType | MStructType _ => TStructType
      end
  | TvCrd c =>
      match c with
      | CStatus => Some TSubresourceStatus | CScale _ => Some TSubresourceScale | CStorage => Some TStorageVersion | CSkip => Some TSkipVersion
      | CColumn _ => Some TPrintColumn | CResource _ => Some TResource | CUnserved => Some TUnservedVersion | CDeprecated _ => Some TDeprecatedVersion
      | CMetadata _ _ => Some TMetadata | CSelectable _ => Some TSelectableField | COther => None
      end
  | TvRule _ => Some TRule | TvHook _ => Some TConfig | TvHookConfig _ => Some TWebhookConfig
  | TvText _ => Some TText | TvBool _ => Some TBool | TvRaw _ => Some TRaw | TvUnit => Some TUnit | TvSchemaless => Some TSchemaless
  end.
