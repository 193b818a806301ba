(** * Model of the marker tables: which markers the generators register, under which names and targets, and what their
    texts become. pkg/crd/markers/register.go, validation.go:28-145, crd.go:27-67, package.go, topology.go:26-49, and the
    definitions of pkg/rbac, pkg/webhook, pkg/deepcopy and pkg/applyconfiguration. Definitions only.

    strconv.ParseFloat is the oracle [fval] (the number read, None for an error) and encoding/json's Unmarshal the oracle
    [json_read]. Values of type interface{} are the JSON values they are marshalled to, with sorted keys. The help texts
    are not modelled. A Go type is its [kind]; [go_output] is what reflect tells of it. *)

From Coq Require Import List String Ascii Bool Arith ZArith QArith.
From Verif Require Import GoLib DocModel RegistryModel ParseModel SchemaModel MarkModel CrdModel.
From Verif Require RbacModel WebhookModel.
Import ListNotations.
Open Scope string_scope.
Open Scope list_scope.

(** The Go types of marker values: pkg/crd/markers/validation.go:147-353, topology.go:51-118, crd.go:69-400,
    pkg/rbac/parser.go:45, pkg/webhook/parser.go:61-162; TUnit: struct{}, TText: string, TBool: bool, TRaw: RawArguments *)
Inductive kind :=
| TMaximum | TMinimum | TExclusiveMaximum | TExclusiveMinimum | TMultipleOf | TMinProperties | TMaxProperties
| TMaxLength | TMinLength | TPattern | TMaxItems | TMinItems | TUniqueItems | TEnum | TFormat | TType
| TXPreserveUnknownFields | TXEmbeddedResource | TXIntOrString | TXValidation
| TNullable | TDefault | TKubernetesDefault | TExample | TSchemaless | TTitle
| TListMapKey | TListType | TMapType | TStructType
| TSubresourceStatus | TSubresourceScale | TPrintColumn | TResource | TStorageVersion | TSkipVersion | TUnservedVersion
| TDeprecatedVersion | TMetadata | TSelectableField
| TRule | TConfig | TWebhookConfig
| TUnit | TText | TBool | TRaw.

(** reflect.TypeOf(obj).Name() of the types in ValidationMarkers, pkg/crd/markers/validation.go:44-76; the others are
    given a name where they are registered *)
Definition go_name (k : kind) : string :=
  match k with
  | TMaximum => "Maximum" | TMinimum => "Minimum" | TExclusiveMaximum => "ExclusiveMaximum" | TExclusiveMinimum => "ExclusiveMinimum"
  | TMultipleOf => "MultipleOf" | TMinProperties => "MinProperties" | TMaxProperties => "MaxProperties"
  | TMaxLength => "MaxLength" | TMinLength => "MinLength" | TPattern => "Pattern"
  | TMaxItems => "MaxItems" | TMinItems => "MinItems" | TUniqueItems => "UniqueItems"
  | TEnum => "Enum" | TFormat => "Format" | TType => "Type"
  | TXPreserveUnknownFields => "XPreserveUnknownFields" | TXEmbeddedResource => "XEmbeddedResource" | TXIntOrString => "XIntOrString"
  | TXValidation => "XValidation"
  | _ => ""
  end.

(** Fields of a struct without a tag, with `marker:",optional"`, with a name, with a name and optional. The structs of
    pkg/crd/markers/crd.go:69-400. *)
Definition plain (n : string) (t : gotype) : sfield := mkSField n t None true.
(** The optional arguments of pkg/crd/markers/crd.go:69-400 *)
Definition opt (n : string) (t : gotype) : sfield := mkSField n t (Some ",optional") true.
(** Fields with names of their own, such as pkg/webhook/parser.go:123-161 *)
Definition called (n tag : string) (t : gotype) : sfield := mkSField n t (Some tag) true.

(** The definitions of the types: pkg/crd/markers/validation.go:147-353, topology.go:67-118, crd.go:69-400,
    pkg/rbac/parser.go:45-63, pkg/webhook/parser.go:61-162 *)
Definition go_output (k : kind) : output :=
  match k with
  | TMaximum | TMinimum | TMultipleOf => OOther GFloat64
  | TExclusiveMaximum | TExclusiveMinimum | TUniqueItems => OOther GBool
  | TMinProperties | TMaxProperties | TMaxLength | TMinLength | TMaxItems | TMinItems => OOther GInt
  | TPattern | TFormat | TType | TListMapKey | TListType | TMapType | TStructType => OOther GString
  | TEnum => OOther (GSlice GAny)
  | TXPreserveUnknownFields | TXEmbeddedResource | TXIntOrString | TNullable | TSchemaless => OStruct []
  | TXValidation => OStruct [plain "Rule" GString; opt "Message" GString; called "MessageExpression" "messageExpression,optional" GString;
      called "Reason" "reason,optional" GString; called "FieldPath" "fieldPath,optional" GString; called "OptionalOldSelf" "optionalOldSelf,optional" (GPtr GBool)]
  | TDefault | TKubernetesDefault | TExample | TTitle => OStruct [plain "Value" GAny]
  | TSubresourceStatus | TStorageVersion | TSkipVersion | TUnservedVersion => OStruct []
  | TSubresourceScale => OStruct [called "SpecPath" "specpath" GString; called "StatusPath" "statuspath" GString; called "SelectorPath" "selectorpath" (GPtr GString)]
  | TPrintColumn => OStruct [plain "Name" GString; plain "Type" GString; called "JSONPath" "JSONPath" GString; opt "Description" GString; opt "Format" GString; opt "Priority" GInt32]
  | TResource => OStruct [opt "Path" GString; opt "ShortName" (GSlice GString); opt "Categories" (GSlice GString); opt "Singular" GString; opt "Scope" GString]
  | TDeprecatedVersion => OStruct [opt "Warning" (GPtr GString)]
  | TMetadata => OStruct [opt "Annotations" (GSlice GString); opt "Labels" (GSlice GString)]
  | TSelectableField => OStruct [called "JSONPath" "JSONPath" GString]
  | TRule => OStruct [opt "Groups" (GSlice GString); opt "Resources" (GSlice GString); opt "ResourceNames" (GSlice GString); plain "Verbs" (GSlice GString);
      called "URLs" "urls,optional" (GSlice GString); opt "Namespace" GString]
  | TConfig => OStruct [plain "Mutating" GBool; plain "FailurePolicy" GString; opt "MatchPolicy" GString; opt "SideEffects" GString; opt "TimeoutSeconds" GInt;
      plain "Groups" (GSlice GString); plain "Resources" (GSlice GString); plain "Verbs" (GSlice GString); plain "Versions" (GSlice GString);
      plain "Name" GString; called "ServiceName" "serviceName,optional" GString; called "ServiceNamespace" "serviceNamespace,optional" GString;
      called "Path" "path,optional" GString; called "ServicePort" "servicePort,optional" (GPtr GInt32);
      called "WebhookVersions" "webhookVersions,optional" (GSlice GString); called "AdmissionReviewVersions" "admissionReviewVersions" (GSlice GString);
      called "ReinvocationPolicy" "reinvocationPolicy,optional" GString; called "URL" "url,optional" GString]
  | TWebhookConfig => OStruct [plain "Mutating" GBool; called "Name" "name,optional" GString]
  | TUnit => OStruct []
  | TText => OOther GString
  | TBool => OOther GBool
  | TRaw => OOther GRaw
  end.

(** ** Tables *)
(** pkg/markers/parse.go:710-728: the output type with Fields, FieldNames and Strict *)
Record payload := mkPayload { p_kind : kind; p_def : definition }.
(** The definitions made when the package is initialised; None: the initialisation panics. markers.Must,
    pkg/markers/regutil.go:20-25. *)
Definition entry := option (def payload).

(** must(markers.MakeDefinition(name, target, obj)), pkg/crd/markers/register.go:53-57 *)
Definition make (name : string) (t : target) (k : kind) : entry :=
  option_map (fun d => mkDef name t (mkPayload k d)) (make_definition (go_output k)).
(** must(markers.MakeAnyTypeDefinition(name, target, obj)), pkg/crd/markers/register.go:53-57 *)
Definition make_any (name : string) (t : target) (k : kind) : entry :=
  option_map (fun d => mkDef name t (mkPayload k d)) (make_any_definition (go_output k)).
(** pkg/crd/markers/register.go:59-70 *)
Definition make_optional (name : string) (t : target) (k : kind) : entry :=
  match make_definition (go_output k) with
  | Some d =>
      if anonymous_field d
      then Some (mkDef name t (mkPayload k (mkDefinition (map (fun kf => (fst kf, mkField (f_name (snd kf)) (f_arg (snd kf)) true)) (d_fields d)) (d_strict d))))
      else None
  | None => None
  end.
(** pkg/crd/markers/register.go:82-94 *)
Definition make_all (prefix : string) (t : target) (ks : list kind) : list entry := map (fun k => make (prefix ++ go_name k) t k) ks.

(** pkg/crd/markers/validation.go:29 *)
Definition validation_prefix : string := "kubebuilder:validation:".
(** strings.TrimPrefix, called at pkg/crd/markers/validation.go:128 *)
Definition trim_prefix (pre s : string) : string := if has_prefix pre s then str_drop (String.length pre) s else s.

(** pkg/crd/markers/validation.go:43-76 *)
Definition validation_kinds : list kind :=
  [TMaximum; TMinimum; TExclusiveMaximum; TExclusiveMinimum; TMultipleOf; TMinProperties; TMaxProperties;
   TMaxLength; TMinLength; TPattern; TMaxItems; TMinItems; TUniqueItems;
   TEnum; TFormat; TType; TXPreserveUnknownFields; TXEmbeddedResource; TXIntOrString; TXValidation].
(** pkg/crd/markers/validation.go:43-76 *)
Definition validation_markers : list entry := make_all validation_prefix DescribesField validation_kinds.
(** pkg/crd/markers/validation.go:80-110 *)
Definition field_only_markers : list entry :=
  [make "kubebuilder:validation:Required" DescribesField TUnit;
   make "kubebuilder:validation:Optional" DescribesField TUnit;
   make "required" DescribesField TUnit;
   make "optional" DescribesField TUnit;
   make "nullable" DescribesField TNullable;
   make_any "kubebuilder:default" DescribesField TDefault;
   make "default" DescribesField TKubernetesDefault;
   make_any "kubebuilder:example" DescribesField TExample;
   make "kubebuilder:validation:EmbeddedResource" DescribesField TXEmbeddedResource;
   make "kubebuilder:validation:Schemaless" DescribesField TSchemaless;
   make_any "kubebuilder:title" DescribesField TTitle].
(** pkg/crd/markers/validation.go:115-120 *)
Definition validation_ish_markers : list entry :=
  [make "kubebuilder:pruning:PreserveUnknownFields" DescribesField TXPreserveUnknownFields;
   make "kubebuilder:pruning:PreserveUnknownFields" DescribesType TXPreserveUnknownFields].
(** pkg/crd/markers/validation.go:125-141: the copies of one definition *)
Definition copies (e : entry) : list entry :=
  match e with
  | None => [None]
  | Some d =>
      let items := (items_prefix ++ trim_prefix validation_prefix (d_name d))%string in
      [Some (mkDef (d_name d) DescribesType (d_payload d));
       Some (mkDef items (d_target d) (d_payload d));
       Some (mkDef items DescribesType (d_payload d))]
  end.
(** pkg/crd/markers/crd.go:29-59 *)
Definition crd_markers : list entry :=
  [make "kubebuilder:subresource:status" DescribesType TSubresourceStatus;
   make "kubebuilder:subresource:scale" DescribesType TSubresourceScale;
   make "kubebuilder:printcolumn" DescribesType TPrintColumn;
   make "kubebuilder:resource" DescribesType TResource;
   make "kubebuilder:storageversion" DescribesType TStorageVersion;
   make "kubebuilder:skipversion" DescribesType TSkipVersion;
   make "kubebuilder:unservedversion" DescribesType TUnservedVersion;
   make "kubebuilder:deprecatedversion" DescribesType TDeprecatedVersion;
   make "kubebuilder:metadata" DescribesType TMetadata;
   make "kubebuilder:selectablefield" DescribesType TSelectableField].
(** pkg/crd/markers/package.go:23-40 *)
Definition package_markers : list entry :=
  [make_optional "groupName" DescribesPackage TText;
   make "versionName" DescribesPackage TText;
   make "kubebuilder:validation:Optional" DescribesPackage TUnit;
   make "kubebuilder:validation:Required" DescribesPackage TUnit;
   make "kubebuilder:skip" DescribesPackage TUnit].
(** pkg/crd/markers/topology.go:28-45 *)
Definition topology_markers : list entry :=
  [make "listMapKey" DescribesField TListMapKey; make "listMapKey" DescribesType TListMapKey;
   make "listType" DescribesField TListType; make "listType" DescribesType TListType;
   make "mapType" DescribesField TMapType; make "mapType" DescribesType TMapType;
   make "structType" DescribesField TStructType; make "structType" DescribesType TStructType].
(** AllDefinitions of pkg/crd/markers/register.go:73-74 after the init functions, which run in the order of the file
    names: crd.go:64-66, package.go:23-40, topology.go:47-49, validation.go:122-145 *)
Definition crd_table : list entry :=
  crd_markers ++ package_markers ++ topology_markers ++
  validation_markers ++ flat_map copies validation_markers ++ field_only_markers ++ validation_ish_markers.

(** pkg/deepcopy/gen.go:41-47, in the order of :70-72 *)
Definition object_table : list entry :=
  [make "kubebuilder:object:generate" DescribesPackage TBool;
   make "k8s:deepcopy-gen" DescribesPackage TRaw;
   make "kubebuilder:object:generate" DescribesType TBool;
   make "k8s:deepcopy-gen" DescribesType TRaw;
   make "kubebuilder:object:root" DescribesType TBool;
   make "k8s:deepcopy-gen:interfaces" DescribesType TText].
(** pkg/rbac/parser.go:39 *)
Definition rbac_table : list entry := [make "kubebuilder:rbac" DescribesPackage TRule].
(** pkg/webhook/parser.go:49-51 *)
Definition webhook_table : list entry :=
  [make "kubebuilder:webhook" DescribesPackage TConfig;
   make "kubebuilder:webhookconfiguration" DescribesPackage TWebhookConfig].
(** pkg/applyconfiguration/gen.go:43-46, in the order of :68-69 *)
Definition apply_table : list entry :=
  [make "kubebuilder:resource" DescribesType TResource;
   make "kubebuilder:ac:generate" DescribesPackage TBool;
   make "kubebuilder:ac:generate" DescribesType TBool;
   make "kubebuilder:ac:output:package" DescribesPackage TText].

(** cmd/controller-gen/main.go:53-60 *)
Inductive generator := GenCrd | GenRbac | GenObject | GenApply | GenWebhook | GenSchemapatch.
(** RegisterMarkers: pkg/crd/gen.go:106-108, pkg/schemapatcher/gen.go:85-87, pkg/rbac/parser.go:174-180,
    pkg/webhook/parser.go:431-441, pkg/deepcopy/gen.go:69-74, pkg/applyconfiguration/gen.go:67-71 *)
Definition table (g : generator) : list entry :=
  match g with
  | GenCrd | GenSchemapatch => crd_table
  | GenRbac => rbac_table
  | GenObject => object_table
  | GenApply => apply_table
  | GenWebhook => webhook_table
  end.

(** No Go counterpart: the entries that did not panic, and whether all did not. markers.Must,
    pkg/markers/regutil.go:20-25. *)
Definition made (l : list entry) : list (def payload) := flat_map (fun e => match e with Some d => [d] | None => [] end) l.
(** Did nothing panic? pkg/markers/regutil.go:20-25. *)
Definition initialised (l : list entry) : bool := forallb (fun e => match e with Some _ => true | None => false end) l.

(** pkg/genall/genall.go:39-46 *)
Definition definitions (gs : list generator) : list (def payload) := flat_map (fun g => made (table g)) gs.
(** pkg/genall/genall.go:243-245, on the registry of the runtime *)
Definition registry_of (gs : list generator) : registry payload := register_all payload (definitions gs).

(** ** Values *)
(** The Go values that Parse returns, pkg/markers/parse.go:927 *)
Inductive tvalue := TvSchema (m : smarker) | TvCrd (c : cval) | TvRule (r : RbacModel.rule) | TvHook (h : WebhookModel.hook) | TvHookConfig (w : WebhookModel.whconfig)
  | TvText (s : string) | TvBool (b : bool) | TvRaw (s : string) | TvUnit | TvSchemaless.

Section Values.
  Variable fval : string -> option Q.
  Variable json_read : string -> option json.

  (** Does strconv.ParseFloat succeed? pkg/markers/parse.go:555-560. *)
  Definition float_ok (s : string) : bool := match fval s with Some _ => true | None => false end.
  (** Go: the float64 of a text that was accepted. pkg/markers/parse.go:555-560. *)
  Definition number (s : string) : Q := match fval s with Some q => q | None => 0%Q end.

  (** Go: json.Marshal of an interface{} holding what the parser stores, as at pkg/crd/markers/validation.go:488 and
      :528. Maps are written with sorted keys. *)
  Fixpoint any_json (v : value) : json :=
    match v with
    | VInt z => JNum (inject_Z z)
    | VNum s => JNum (number s)
    | VStr s => JStr s
    | VBool b => JBool b
    | VList l => JArr (map any_json l)
    | VMap m => JObj (sort_by (fun a b => str_ltb (fst a) (fst b)) (map (fun kv => match kv with (k, w) => (k, any_json w) end) m))
    | VRaw s => JStr s
    | VPtr w => any_json w
    end.

  (** The fields of the value that reflect.New makes: zero unless set. pkg/markers/parse.go:831-832. *)
  Definition str_of (out : list (string * value)) (f : string) : string := match mget String.eqb out f with Some (VStr s) => s | _ => "" end.
  (** Likewise, pkg/markers/parse.go:831-832 *)
  Definition int_of (out : list (string * value)) (f : string) : Z := match mget String.eqb out f with Some (VInt z) => z | _ => 0%Z end.
  (** Likewise, pkg/markers/parse.go:831-832 *)
  Definition bool_of (out : list (string * value)) (f : string) : bool := match mget String.eqb out f with Some (VBool b) => b | _ => false end.
  (** Likewise, pkg/markers/parse.go:831-832 *)
  Definition num_of (out : list (string * value)) (f : string) : Q := match mget String.eqb out f with Some (VNum s) => number s | _ => 0%Q end.
  (** Likewise, pkg/markers/parse.go:831-832 *)
  Definition raw_of (out : list (string * value)) (f : string) : string := match mget String.eqb out f with Some (VRaw s) => s | _ => "" end.
  (** Likewise, pkg/markers/parse.go:831-832 *)
  Definition any_of (out : list (string * value)) (f : string) : json := match mget String.eqb out f with Some v => any_json v | None => JNull end.
  (** Likewise, pkg/markers/parse.go:831-832 *)
  Definition anys_of (out : list (string * value)) (f : string) : list json := match mget String.eqb out f with Some (VList l) => map any_json l | _ => [] end.
  (** Likewise, pkg/markers/parse.go:831-832 *)
  Definition strs_of (out : list (string * value)) (f : string) : list string :=
    match mget String.eqb out f with Some (VList l) => map (fun v => match v with VStr s => s | _ => "" end) l | _ => [] end.
  (** Likewise, pkg/markers/parse.go:831-832 *)
  Definition ptr_str_of (out : list (string * value)) (f : string) : option string := match mget String.eqb out f with Some (VPtr (VStr s)) => Some s | _ => None end.
  (** Likewise, pkg/markers/parse.go:831-832 *)
  Definition ptr_int_of (out : list (string * value)) (f : string) : option Z := match mget String.eqb out f with Some (VPtr (VInt z)) => Some z | _ => None end.
  (** Likewise, pkg/markers/parse.go:831-832 *)
  Definition ptr_bool_of (out : list (string * value)) (f : string) : option bool := match mget String.eqb out f with Some (VPtr (VBool b)) => Some b | _ => None end.

  (** out.Interface(), pkg/markers/parse.go:927: the value of the Go type with these fields *)
  Definition build (k : kind) (o : list (string * value)) : tvalue :=
    match k with
    | TMaximum => TvSchema (MMaximum (num_of o "")) | TMinimum => TvSchema (MMinimum (num_of o "")) | TMultipleOf => TvSchema (MMultipleOf (num_of o ""))
    | TExclusiveMaximum => TvSchema (MExclMax (bool_of o "")) | TExclusiveMinimum => TvSchema (MExclMin (bool_of o ""))
    | TMinProperties => TvSchema (MMinProps (int_of o "")) | TMaxProperties => TvSchema (MMaxProps (int_of o ""))
    | TMaxLength => TvSchema (MMaxLength (int_of o "")) | TMinLength => TvSchema (MMinLength (int_of o "")) | TPattern => TvSchema (MPattern (str_of o ""))
    | TMaxItems => TvSchema (MMaxItems (int_of o "")) | TMinItems => TvSchema (MMinItems (int_of o "")) | TUniqueItems => TvSchema (MUniqueItems (bool_of o ""))
    | TEnum => TvSchema (MEnum (anys_of o "")) | TFormat => TvSchema (MFormat (str_of o "")) | TType => TvSchema (MType (str_of o ""))
    | TXPreserveUnknownFields => TvSchema MPreserve | TXEmbeddedResource => TvSchema MEmbedded | TXIntOrString => TvSchema MIntOrString
    | TXValidation => TvSchema (MXValidation (mkVrule (str_of o "Rule") (str_of o "Message") (str_of o "MessageExpression") (str_of o "Reason") (str_of o "FieldPath") (ptr_bool_of o "OptionalOldSelf")))
    | TNullable => TvSchema MNullable | TDefault => TvSchema (MDefault (any_of o "Value")) | TKubernetesDefault => TvSchema (MKubeDefault (any_of o "Value"))
    | TExample => TvSchema (MExample (any_of o "Value")) | TTitle => TvSchema (MTitle (any_of o "Value")) | TSchemaless => TvSchemaless
    | TListMapKey => TvSchema (MListMapKey (str_of o "")) | TListType => TvSchema (MListType (str_of o "")) | TMapType => TvSchema (MMapType (str_of o ""))
    | TStructType => TvSchema (MStructType (str_of o ""))
    | TSubresourceStatus => TvCrd CStatus | TSubresourceScale => TvCrd (CScale (mkScale (str_of o "SpecPath") (str_of o "StatusPath") (ptr_str_of o "SelectorPath")))
    | TPrintColumn => TvCrd (CColumn (mkColumn (str_of o "Name") (str_of o "Type") (str_of o "JSONPath") (str_of o "Description") (str_of o "Format") (int_of o "Priority")))
    | TResource => TvCrd (CResource (mkResource (str_of o "Path") (strs_of o "ShortName") (strs_of o "Categories") (str_of o "Singular") (str_of o "Scope")))
    | TStorageVersion => TvCrd CStorage | TSkipVersion => TvCrd CSkip | TUnservedVersion => TvCrd CUnserved
    | TDeprecatedVersion => TvCrd (CDeprecated (ptr_str_of o "Warning"))
    | TMetadata => TvCrd (CMetadata (strs_of o "Annotations") (strs_of o "Labels")) | TSelectableField => TvCrd (CSelectable (str_of o "JSONPath"))
    | TRule => TvRule (RbacModel.mkRule (strs_of o "Groups") (strs_of o "Resources") (strs_of o "ResourceNames") (strs_of o "Verbs") (strs_of o "URLs") (str_of o "Namespace"))
    | TConfig => TvHook (WebhookModel.mkHook (bool_of o "Mutating") (str_of o "FailurePolicy") (str_of o "MatchPolicy") (str_of o "SideEffects") (int_of o "TimeoutSeconds")
        (strs_of o "Groups") (strs_of o "Resources") (strs_of o "Verbs") (strs_of o "Versions") (str_of o "Name") (str_of o "ServiceName") (str_of o "ServiceNamespace")
        (str_of o "Path") (ptr_int_of o "ServicePort") (strs_of o "WebhookVersions") (strs_of o "AdmissionReviewVersions") (str_of o "ReinvocationPolicy") (str_of o "URL"))
    | TWebhookConfig => TvHookConfig (WebhookModel.mkWhConfig (bool_of o "Mutating") (str_of o "Name"))
    | TUnit => TvUnit | TText => TvText (str_of o "") | TBool => TvBool (bool_of o "") | TRaw => TvRaw (raw_of o "")
    end.

  (** KubernetesDefault.ParseMarker, pkg/crd/markers/validation.go:557-564; None: an error *)
  Definition parse_kubernetes_default (rest : string) : option tvalue :=
    if has_prefix "ref(" (trim_space rest) then Some (TvSchema (MKubeDefault JNull))
    else option_map (fun v => TvSchema (MKubeDefault v)) (json_read rest).

  (** Definition.Parse, pkg/markers/parse.go:828-928, with the check for a ParseMarker method at :834-837: only
      KubernetesDefault has one. None: an error. *)
  Definition parse_value (d : def payload) (raw : string) : option tvalue :=
    match p_kind (d_payload d) with
    | TKubernetesDefault => match split_marker raw with Some (_, _, rest) => parse_kubernetes_default rest | None => None end
    | k => match parse_marker float_ok (p_def (d_payload d)) raw with Some (Ok out) => Some (build k out) | _ => None end
    end.
End Values.

(** pkg/crd/schema.go:148-166: the values that are SchemaMarkers, as MarkModel has them *)
Definition schema_value (v : tvalue) : mvalue := match v with TvSchema m => VSchema m | _ => VOther end.
(** The values that are SpecMarkers or CRDMarkers, as CrdModel has them. pkg/crd/spec.go:106-131. *)
Definition crd_value (v : tvalue) : cval := match v with TvCrd c => c | _ => COther end.
(** What applyMarkers gets, pkg/crd/schema.go:148-166 *)
Definition schema_set (vals : list (string * list tvalue)) : marker_values := map (fun kv => (fst kv, map schema_value (snd kv))) vals.
