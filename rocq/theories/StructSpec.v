(** * What the schema of a Go type is to be. *)
From Coq Require Import List String Ascii Bool.
From Verif Require Import GoLib SchemaModel RefModel ErrorsModel MarkModel MarkSpec StructModel FlattenModel NeedModel.
Import ListNotations.
Open Scope string_scope.
Open Scope list_scope.

(** ** Struct fields *)
Definition marked (set : marker_values) (name : string) : Prop := exists v vs, mget String.eqb set name = Some (v :: vs).
(** A json tag: a name and options separated by commas *)
Definition tag_parts (tag name : string) (opts : list string) : Prop := tag = join "," (name :: opts) /\ Forall (fun x => has_char ","%char x = false) (name :: opts).
Definition hidden (ignore_unexported : bool) (f : finfo) : Prop := fi_name f <> "" /\ ignore_unexported = true /\ fi_exported f = false.
(** Who decides whether a field is required *)
Inductive requirement (pkg_markers : marker_values) (f : finfo) (inline omit : bool) : bool -> Prop :=
| by_kb_optional : marked (fi_markers f) "kubebuilder:validation:Optional" -> requirement pkg_markers f inline omit false
| by_kb_required : ~ marked (fi_markers f) "kubebuilder:validation:Optional" -> marked (fi_markers f) "kubebuilder:validation:Required" -> requirement pkg_markers f inline omit true
| by_optional : ~ marked (fi_markers f) "kubebuilder:validation:Optional" -> ~ marked (fi_markers f) "kubebuilder:validation:Required" ->
    marked (fi_markers f) "optional" -> requirement pkg_markers f inline omit false
| by_required : ~ marked (fi_markers f) "kubebuilder:validation:Optional" -> ~ marked (fi_markers f) "kubebuilder:validation:Required" -> ~ marked (fi_markers f) "optional" ->
    marked (fi_markers f) "required" -> requirement pkg_markers f inline omit true
| by_package : (forall m, In m ["kubebuilder:validation:Optional"; "kubebuilder:validation:Required"; "optional"; "required"] -> ~ marked (fi_markers f) m) ->
    marked pkg_markers "kubebuilder:validation:Optional" -> requirement pkg_markers f inline omit false
| by_omitempty : (forall m, In m ["kubebuilder:validation:Optional"; "kubebuilder:validation:Required"; "optional"; "required"] -> ~ marked (fi_markers f) m) ->
    ~ marked pkg_markers "kubebuilder:validation:Optional" -> requirement pkg_markers f inline omit (negb inline && negb omit).

(** What becomes of a field *)
Inductive role := Skipped | Untagged | Member (name : string) (inline required : bool).
Inductive plays (ignore_unexported : bool) (pkg_markers : marker_values) (f : finfo) : role -> Prop :=
| plays_hidden : hidden ignore_unexported f -> plays ignore_unexported pkg_markers f Skipped
| plays_untagged : ~ hidden ignore_unexported f -> fi_json f = None -> plays ignore_unexported pkg_markers f Untagged
| plays_dash : ~ hidden ignore_unexported f -> fi_json f = Some "-" -> plays ignore_unexported pkg_markers f Skipped
| plays_member tag name opts inline omit required : ~ hidden ignore_unexported f -> fi_json f = Some tag -> tag <> "-" -> tag_parts tag name opts ->
    (inline = true <-> name = "" \/ In "inline" opts) -> (omit = true <-> In "omitempty" opts) -> requirement pkg_markers f inline omit required ->
    plays ignore_unexported pkg_markers f (Member name inline required).
Definition required_by (r : role) : list string := match r with Member n _ true => [n] | _ => [] end.

(** ** References *)
Inductive ref_in (r : string) : schema -> Prop :=
| ref_here s : k_ref (s_kw s) = Some r -> ref_in r s
| ref_below s c : In c (children s) -> ref_in r c -> ref_in r s.

(** ** The parser *)
Section Parser.
  Variable order : marker_values -> marker_values.
  Variable sorted : list (string * smarker) -> list (string * smarker).
  Variable allow_dangerous ignore_unexported : bool.
  Variable imports : string -> string -> bool.
  Variable pkg_markers : string -> marker_values.
  Variable types : ident -> option tinfo.
  Variable presets : string -> list (string * schema).
  Definition generated (id : ident) (ti : tinfo) : res schema :=
    info_to_schema order sorted (imports (fst id)) allow_dangerous ignore_unexported (pkg_markers (fst id)) ti.
  (** The schema of a type, whatever the order of requests *)
  Definition schema_of (id : ident) : option schema :=
    match mget String.eqb (presets (fst id)) (snd id) with
    | Some s => Some s
    | None => match types id with Some ti => match generated id ti with Done s _ _ => Some s | Panic => None end | None => None end
    end.
  (** A type is known or was reported *)
  Definition answered (st : pstate) (id : ident) : Prop :=
    mget ident_eqb (ps_schemata st) id <> None \/ In (fst id, PUnknown (snd id)) (ps_errs st).
  (** The types the requested ones depend on, by what is requested to build their schemas *)
  Inductive needed (roots : list ident) : ident -> Prop :=
  | needed_root id : In id roots -> needed roots id
  | needed_by id ti s reqs errs r : needed roots id -> mget String.eqb (presets (fst id)) (snd id) = None -> types id = Some ti ->
      generated id ti = Done s reqs errs -> In r reqs -> needed roots (target id r).
  (** The type a reference in a schema of package [pkg] is to *)
  Definition refers (pkg : string) (r : string) (id : ident) : Prop :=
    exists path, r = type_ref_link path (snd id) /\ ((path = "" /\ fst id = pkg) \/ (path <> "" /\ fst id = path)).
End Parser.

(** ** The parts of a struct's schema *)
Section Fields.
  Variable order : marker_values -> marker_values.
  Variable sorted : list (string * smarker) -> list (string * smarker).
  Variable imports : string -> bool.
  Variable allow_dangerous ignore_unexported : bool.
  Variable pkg_markers : marker_values.
  (** The schema of a field: that of its type (none if it is schemaless), the field's documentation, the field's markers *)
  Definition field_schema (f : finfo) (p : schema) : Prop :=
    exists base,
      (marked (fi_markers f) "kubebuilder:validation:Schemaless" -> base = schema0) /\
      (~ marked (fi_markers f) "kubebuilder:validation:Schemaless" ->
        exists reqs errs, type_to_schema order sorted imports allow_dangerous Panic Panic "" [] (fi_type f) = Done base reqs errs) /\
      p = fst (apply_markers order sorted (fi_markers f) (set_desc base (fi_doc f))).
  (** What a field contributes *)
  Definition part := (role * option schema)%type.
  Definition contributes (f : finfo) (x : part) : Prop :=
    plays ignore_unexported pkg_markers f (fst x) /\
    match x with (Member _ _ _, Some p) => field_schema f p | (Member _ _ _, None) => False | (_, o) => o = None end.
End Fields.
Definition inlined (x : part) : list schema := match x with (Member _ true _, Some p) => [p] | _ => [] end.
(** [p] is what the last field named [n] contributes *)
Definition last_named (n : string) (xs : list part) (p : schema) : Prop :=
  exists pre req post, xs = pre ++ (Member n false req, Some p) :: post /\ forall req' o, ~ In (Member n false req', o) post.

(** ** Types the generator crashes on *)
Section Crash.
  Variable imports : string -> bool.
  (** The declared type a type expression denotes: none for types that have no name or are predeclared *)
  Definition importable (o : owner) : Prop :=
    match o with OHere => True | OPkg p => non_vendor_path p = "" \/ imports (non_vendor_path p) = true | OUniverse => False end.
  Inductive crashes : texpr -> Prop :=
  | crash_unnamed n t : match t with TAlias _ _ rhs => rhs | _ => t end = TOther -> crashes (EIdent n t)
  | crash_owner n t o m u : match t with TAlias _ _ rhs => rhs | _ => t end = TNamed o m u -> ~ importable o -> crashes (EIdent n t)
  | crash_alias_owner n o' m' o m u : ~ importable o -> crashes (EIdent n (TAlias o' m' (TAlias o m u)))
  | crash_selector t : match t with TInvalid => False | TNamed (OPkg p) _ _ | TAlias (OPkg p) _ _ => ~ importable (OPkg p) | _ => True end -> crashes (ESel t)
  | crash_array sized e : ~ (is_byte_type (type_of e) = true /\ sized = false) -> crashes e -> crashes (EArray sized e)
  | crash_map k v : string_key k = true -> v <> EStruct -> crashes v -> crashes (EMap k v)
  | crash_star e : crashes e -> crashes (EStar e)
  | crash_struct : crashes EStruct.
End Crash.
