(** * What the comments of the sources say about the objects of a kind (C64)

    In terms of declarations, of the places of comments (SourceSpec) and of their texts (TablesSpec); the collector and the registry are not
    mentioned. *)
From Coq Require Import List String Ascii Bool QArith.
From Verif Require Import GoLib SchemaModel ErrorsModel ValidSpec MarkModel MarkSpec StructModel FlattenModel NeedModel StructSpec EmitSpec RegistryModel CollectModel CollectSpec TablesModel TablesSpec SourceModel SourceSpec OriginModel.
Import ListNotations.
Open Scope string_scope.
Open Scope list_scope.

(** The comments of a field and of a type, given by its node *)
Definition field_comment (gp : gpackage) (node : nat) (c : comment) : Prop :=
  exists f top h, In f (gp_files gp) /\ In (Enter top h) (events f) /\ h_kind h = KField /\ h_id h = node /\ node_comment f h c.
Definition spec_comment (gp : gpackage) (node : nat) (c : comment) : Prop :=
  exists f before top h after, In f (gp_files gp) /\ events f = before ++ Enter top h :: after /\ h_kind h = KType /\ h_id h = node /\ type_comment f before h c.
(** What the parser and the type checker guarantee of a package: the files are parsed, a declaration is a type of the files, its fields are fields of
    the files, and types have different names *)
Record compiled (gp : gpackage) : Prop := {
  cp_files : Forall parsed_file (gp_files gp);
  cp_nodes : distinct_nodes (gp_files gp);
  cp_names : NoDup (map td_name (gp_decls gp));
  cp_types : forall d, In d (gp_decls gp) -> exists f before top h after, In f (gp_files gp) /\ events f = before ++ Enter top h :: after /\ h_kind h = KType /\ h_id h = td_node d;
  cp_fields : forall d fd, In d (gp_decls gp) -> In fd (td_fields d) -> exists f top h, In f (gp_files gp) /\ In (Enter top h) (events f) /\ h_kind h = KField /\ h_id h = df_node fd }.

Section Said.
  Variable fval : string -> option Q.
  Variable json_read : string -> option json.
  Variable gs : list generator.

  (** The comments say that marker n has the value v *)
  Definition said (comments : comment -> Prop) (t : target) (n : string) (v : tvalue) : Prop :=
    exists k c text, comments c /\ comment_is c text /\ known gs k t n /\ says fval json_read k n text v.
  (** Comments with the name of a marker are such that they say something *)
  Definition all_said (comments : comment -> Prop) (t : target) : Prop :=
    forall c text k n, comments c -> comment_is c text -> known gs k t n -> has_name n text -> exists v, says fval json_read k n text v.

  (** A set of markers that has what the comments say *)
  Definition reading (comments : comment -> Prop) (t : target) (set : marker_values) : Prop :=
    NoDup (map fst set) /\ forall n u, (exists l, In (n, l) set /\ In u l) <-> exists v, said comments t n v /\ u = schema_value v.
  (** Information about fields, types and packages with such sets, whatever way it came about *)
  Definition reads_field (gp : gpackage) (fd : dfield) (f : finfo) : Prop :=
    fi_name f = df_name fd /\ fi_exported f = df_exported fd /\ fi_json f = df_json fd /\ fi_type f = df_type fd /\ reading (field_comment gp (df_node fd)) DescribesField (fi_markers f).
  Definition reads_type (gp : gpackage) (d : tdecl) (ti : tinfo) : Prop :=
    ti_name ti = td_name d /\ ti_raw ti = td_raw d /\ ti_json ti = td_json d /\ ti_text ti = td_text d /\
    reading (spec_comment gp (td_node d)) DescribesType (ti_markers ti) /\ Forall2 (reads_field gp) (td_fields d) (ti_fields ti).
  (** Types are known of packages without errors in comments, and that are not skipped *)
  Definition left_out (gp : gpackage) : Prop := exists v, said (package_comment (gp_files gp)) DescribesPackage "kubebuilder:skip" v.
  Record reads (srcs : list (string * gpackage)) (types : ident -> option tinfo) (pkg_markers : string -> marker_values) : Prop := {
    rd_types : forall p gp d, In (p, gp) srcs -> ~ left_out gp -> In d (gp_decls gp) -> exists ti, types (p, td_name d) = Some ti /\ reads_type gp d ti;
    rd_others : forall p n, types (p, n) <> None -> exists gp d, In (p, gp) srcs /\ ~ left_out gp /\ In d (gp_decls gp) /\ td_name d = n;
    rd_packages : forall p gp, In (p, gp) srcs -> (marked (pkg_markers p) "kubebuilder:validation:Optional" <-> exists v, said (package_comment (gp_files gp)) DescribesPackage "kubebuilder:validation:Optional" v) }.

  (** All the comments of a package say something *)
  Definition well_said (gp : gpackage) : Prop :=
    all_said (package_comment (gp_files gp)) DescribesPackage /\
    (forall d, In d (gp_decls gp) -> all_said (spec_comment gp (td_node d)) DescribesType) /\
    (forall d fd, In d (gp_decls gp) -> In fd (td_fields d) -> all_said (field_comment gp (df_node fd)) DescribesField).

  (** The group and version of a package: as the comments say; the version is otherwise the name of the package. *)
  Definition placed (gp : gpackage) (g v : string) : Prop :=
    said (package_comment (gp_files gp)) DescribesPackage "groupName" (TvText g) /\
    (said (package_comment (gp_files gp)) DescribesPackage "versionName" (TvText v) \/
     (v = gp_name gp /\ forall u, ~ said (package_comment (gp_files gp)) DescribesPackage "versionName" u)).
End Said.

(** The type has a field without a name of this type of metav1 *)
Definition embeds (imports : string -> string -> bool) (metav1 p : string) (d : tdecl) (n : string) : Prop :=
  exists fd q u, In fd (td_fields d) /\ df_name fd = "" /\ type_of (df_type fd) = TNamed (OPkg q) n u /\ non_vendor_path q = metav1 /\ imports p metav1 = true.
(** No comment of the type has this name *)
Definition not_marked (gp : gpackage) (d : tdecl) (n : string) : Prop := forall c text, spec_comment gp (td_node d) c -> comment_is c text -> ~ has_name n text.

(** ** What is in an object *)
Section Inside.
  Variable ignore_unexported : bool.
  Variable presets : string -> list (string * schema).
  Variable srcs : list (string * gpackage).

  (** The declaration of a type whose schema is not set; a struct without methods for encoding *)
  Definition declares (id : ident) (gp : gpackage) (d : tdecl) : Prop :=
    In (fst id, gp) srcs /\ In d (gp_decls gp) /\ td_name d = snd id /\ mget String.eqb (presets (fst id)) (snd id) = None.
  Definition is_record (d : tdecl) : Prop := td_raw d = EStruct /\ td_json d = false /\ td_text d = false.
  (** The name of a field in JSON, by its tag; with [inline]: none, the fields of the field's type are those of the struct. *)
  Definition tagged (fd : dfield) (n : string) (opts : list string) : Prop :=
    ~ (df_name fd <> "" /\ ignore_unexported = true /\ df_exported fd = false) /\ exists tag, df_json fd = Some tag /\ tag <> "-" /\ tag_parts tag n opts.
  Definition json_name (fd : dfield) (n : string) : Prop := n <> "" /\ exists opts, tagged fd n opts /\ ~ In "inline" opts.
  Definition inlines (fd : dfield) : Prop := exists n opts, tagged fd n opts /\ (n = "" \/ In "inline" opts).
  Definition no_comment (gp : gpackage) (fd : dfield) (n : string) : Prop := forall c text, field_comment gp (df_node fd) c -> comment_is c text -> ~ has_name n text.

  (** [within root v w x]: x is in the value v of type root, as a value of the type or type expression w *)
  Inductive place := AType (id : ident) | AnExpr (pkg : string) (e : texpr).
  Inductive within (root : ident) (v : json) : place -> json -> Prop :=
  | in_itself : within root v (AType root) v
  | in_field id gp d fd n l x : within root v (AType id) (JObj l) -> declares id gp d -> is_record d -> In fd (td_fields d) -> json_name fd n ->
      no_comment gp fd "kubebuilder:validation:Schemaless" -> mget String.eqb l n = Some x -> within root v (AnExpr (fst id) (df_type fd)) x
  | in_inline id gp d fd x : within root v (AType id) x -> declares id gp d -> is_record d -> In fd (td_fields d) -> inlines fd ->
      no_comment gp fd "kubebuilder:validation:Schemaless" -> within root v (AnExpr (fst id) (df_type fd)) x
  | in_named pkg n t o m u p x : within root v (AnExpr pkg (EIdent n t)) x -> meant t = TNamed o m u \/ meant t = TAlias o m u -> home pkg o = Some p -> within root v (AType (p, m)) x
  | in_selected pkg t o m u p x : within root v (AnExpr pkg (ESel t)) x -> t = TNamed o m u \/ t = TAlias o m u -> home pkg o = Some p -> within root v (AType (p, m)) x
  | in_pointer pkg e x : within root v (AnExpr pkg (EStar e)) x -> within root v (AnExpr pkg e) x
  | in_array pkg sized e l x : within root v (AnExpr pkg (EArray sized e)) (JArr l) -> is_byte_type (type_of e) = false \/ sized = true -> In x l -> within root v (AnExpr pkg e) x
  | in_map pkg key e l k x : within root v (AnExpr pkg (EMap key e)) (JObj l) -> In (k, x) l -> within root v (AnExpr pkg e) x.

  Variable fval : string -> option Q.
  Variable json_read : string -> option json.
  Variable gs : list generator.
  Variable O : oracles.
  Notation said := (said fval json_read gs).
  (** A field that has to be there: by a comment at the field, or else by its tag *)
  Inductive must_be_there (gp : gpackage) (fd : dfield) : Prop :=
  | by_validation u : said (field_comment gp (df_node fd)) DescribesField "kubebuilder:validation:Required" u -> no_comment gp fd "kubebuilder:validation:Optional" -> must_be_there gp fd
  | by_word u : said (field_comment gp (df_node fd)) DescribesField "required" u -> no_comment gp fd "kubebuilder:validation:Optional" -> no_comment gp fd "optional" -> must_be_there gp fd
  | by_tag n opts : tagged fd n opts -> ~ In "omitempty" opts ->
      (forall m, In m ["kubebuilder:validation:Optional"; "kubebuilder:validation:Required"; "optional"; "required"] -> no_comment gp fd m) ->
      (forall c text, package_comment (gp_files gp) c -> comment_is c text -> ~ has_name "kubebuilder:validation:Optional" text) -> must_be_there gp fd.
  (** Everything in the object is as the comments there say. *)
  Record obeys (root : ident) (v : json) : Prop := {
    ob_type : forall id x gp d n m, within root v (AType id) x -> declares id gp d -> said (spec_comment gp (td_node d)) DescribesType n (TvSchema m) -> has_prefix items_prefix n = false ->
      admits O m kw0 x;
    ob_field : forall id l gp d fd n x mn m, within root v (AType id) (JObj l) -> declares id gp d -> is_record d -> In fd (td_fields d) -> json_name fd n -> mget String.eqb l n = Some x ->
      said (field_comment gp (df_node fd)) DescribesField mn (TvSchema m) -> has_prefix items_prefix mn = false -> admits O m kw0 x;
    ob_items : forall id l gp d fd n xs x mn m sized e, within root v (AType id) (JObj l) -> declares id gp d -> is_record d -> In fd (td_fields d) -> json_name fd n -> mget String.eqb l n = Some (JArr xs) ->
      df_type fd = EArray sized e -> is_byte_type (type_of e) = false \/ sized = true -> no_comment gp fd "kubebuilder:validation:Schemaless" -> In x xs ->
      said (field_comment gp (df_node fd)) DescribesField mn (TvSchema m) -> has_prefix items_prefix mn = true -> admits O m kw0 x;
    ob_required : forall id l gp d fd n, within root v (AType id) (JObj l) -> declares id gp d -> is_record d -> In fd (td_fields d) -> json_name fd n -> must_be_there gp fd -> mget String.eqb l n <> None }.
End Inside.
