(** * What values the schema of a Go type in a CRD is to accept

    By the type, its markers and those of its fields. Independent of schemas, but for types with a schema that is set. *)
From Coq Require Import List String Ascii Bool ZArith QArith Relations.
From Verif Require Import GoLib SchemaModel RefModel ErrorsModel ValidSpec MarkModel MarkSpec StructModel FlattenModel NeedModel SchemaFacts FlattenSpec StructSpec.
Import ListNotations.
Open Scope string_scope.
Open Scope list_scope.

(** The JSON type of the values of a basic type, and the format they are to have *)
Definition json_of (k : bkind) : option (string * string) :=
  match k with
  | BBool => Some ("boolean", "") | BString => Some ("string", "")
  | BInt32 | BUint32 => Some ("integer", "int32") | BInt64 | BUint64 => Some ("integer", "int64")
  | BInt | BInt8 | BInt16 | BUint | BUint8 | BUint16 | BUintptr => Some ("integer", "")
  | BFloat32 | BFloat64 => Some ("number", "")
  | BComplex64 | BComplex128 | BUnsafePointer => None
  end.
(** The package a type name belongs to, for one that is used in package [pkg] *)
Definition home (pkg : string) (o : owner) : option string :=
  match o with
  | OUniverse => None
  | OHere => Some pkg
  | OPkg p => Some (if String.eqb (non_vendor_path p) "" then pkg else non_vendor_path p)
  end.
(** The type a name stands for: an alias is what it is an alias of *)
Definition meant (t : gtyp) : gtyp := match t with TAlias _ _ u => u | _ => t end.

Section Conforms.
  Variable O : oracles.
  Variable ignore_unexported : bool.
  Variable pkg_markers : string -> marker_values.
  Variable types : ident -> option tinfo.
  Variable presets : string -> list (string * schema).

  (** A value of JSON type [typ] ("": any) and format [fmt] ("": any), with markers: what they say replaces type and format *)
  Definition has_json_type (typ : string) (v : json) : Prop :=
    match v with
    | JNull => False
    | JBool _ => typ = "boolean"
    | JNum n => typ = "number" \/ (typ = "integer" /\ whole n)
    | JStr _ => typ = "string"
    | JArr _ => typ = "array"
    | JObj _ => typ = "object"
    end.
  Definition keeps (own : list smarker) (typ fmt : string) (v : json) : Prop :=
    (forall m, In m own -> admits O m kw0 v) /\
    ((forall t, ~ In (MType t) own) -> typ = "" \/ has_json_type typ v) /\
    ((forall f, ~ In (MFormat f) own) -> fmt = "" \/ o_format O fmt v = true).

  (** [conforms id v]: v is a value of the type. [fits pkg e own its v]: v is a value of the type expression, in a package, with
      the markers [own], and [its] for its items. *)
  Inductive conforms : ident -> json -> Prop :=
  | con_set id s v : mget String.eqb (presets (fst id)) (snd id) = Some s -> valid O s v = true -> conforms id v
  (* MarshalJSON, and a marker that says the type *)
  | con_json id ti t v : mget String.eqb (presets (fst id)) (snd id) = None -> types id = Some ti -> ti_json ti = true ->
      In (MType t) (markers_of (ti_markers ti) false) -> t <> "" ->
      keeps (markers_of (ti_markers ti) false) "" "" v -> conforms id v
  (* MarshalText *)
  | con_text id ti v : mget String.eqb (presets (fst id)) (snd id) = None -> types id = Some ti -> ti_json ti = false -> ti_text ti = true ->
      keeps (markers_of (ti_markers ti) false) "string" "" v -> conforms id v
  | con_spec id ti v : mget String.eqb (presets (fst id)) (snd id) = None -> types id = Some ti ->
      (ti_json ti = true /\ (forall t, In (MType t) (markers_of (ti_markers ti) false) -> t = "") \/ ti_json ti = false /\ ti_text ti = false) ->
      ti_raw ti <> EStruct ->
      fits (fst id) (ti_raw ti) (markers_of (ti_markers ti) false) (markers_of (ti_markers ti) true) v -> conforms id v
  | con_struct id ti v : mget String.eqb (presets (fst id)) (snd id) = None -> types id = Some ti ->
      (ti_json ti = true /\ (forall t, In (MType t) (markers_of (ti_markers ti) false) -> t = "") \/ ti_json ti = false /\ ti_text ti = false) ->
      ti_raw ti = EStruct ->
      keeps (markers_of (ti_markers ti) false) "object" "" v ->
      (* required fields are there *)
      (forall l f n i, v = JObj l -> In f (ti_fields ti) -> plays ignore_unexported (pkg_markers (fst id)) f (Member n i true) -> mget String.eqb l n <> None) ->
      (* what is there under a field's name is a value of the field *)
      (forall l f n q x, v = JObj l -> In f (ti_fields ti) -> plays ignore_unexported (pkg_markers (fst id)) f (Member n false q) -> mget String.eqb l n = Some x ->
         holds (fst id) f x) ->
      (* the value is one of each embedded field *)
      (forall f n q, In f (ti_fields ti) -> plays ignore_unexported (pkg_markers (fst id)) f (Member n true q) -> holds (fst id) f v) ->
      conforms id v
  with holds : string -> finfo -> json -> Prop :=
  | holds_any pkg f v : marked (fi_markers f) "kubebuilder:validation:Schemaless" -> keeps (markers_of (fi_markers f) false) "" "" v -> holds pkg f v
  | holds_type pkg f v : ~ marked (fi_markers f) "kubebuilder:validation:Schemaless" ->
      fits pkg (fi_type f) (markers_of (fi_markers f) false) (markers_of (fi_markers f) true) v -> holds pkg f v
  with fits : string -> texpr -> list smarker -> list smarker -> json -> Prop :=
  | fits_basic pkg n t k typ fmt own its v : meant t = TBasic k n -> json_of k = Some (typ, fmt) -> keeps own typ fmt v -> fits pkg (EIdent n t) own its v
  (* an alias of a basic type has markers of its own *)
  | fits_alias pkg n t k b typ fmt own its v : meant t = TBasic k b -> b <> n -> json_of k = Some (typ, fmt) -> keeps own typ fmt v -> conforms (pkg, n) v ->
      fits pkg (EIdent n t) own its v
  | fits_named pkg n t o m u p own its v : meant t = TNamed o m u \/ meant t = TAlias o m u -> home pkg o = Some p -> conforms (p, m) v -> keeps own "" "" v ->
      fits pkg (EIdent n t) own its v
  | fits_selected pkg t o m u p own its v : t = TNamed o m u \/ t = TAlias o m u -> home pkg o = Some p -> conforms (p, m) v -> keeps own "" "" v ->
      fits pkg (ESel t) own its v
  | fits_bytes pkg e own its v : is_byte_type (type_of e) = true -> keeps own "string" "byte" v -> fits pkg (EArray false e) own its v
  | fits_array pkg sized e own its v : is_byte_type (type_of e) = false \/ sized = true -> keeps own "array" "" v ->
      (forall l x, v = JArr l -> In x l -> fits pkg e its [] x) -> fits pkg (EArray sized e) own its v
  | fits_map pkg key e own its v : keeps own "object" "" v -> (forall l k x, v = JObj l -> In (k, x) l -> fits pkg e [] [] x) ->
      fits pkg (EMap key e) own its v
  | fits_star pkg e own its v : fits pkg e own its v -> fits pkg (EStar e) own its v.
End Conforms.

(** ** The types considered *)
(** Markers: one for each keyword, no exclusive bounds *)
Definition tame_markers (set : marker_values) : Prop :=
  one_each set /\ forall b, ~ In (MExclMax true) (markers_of set b) /\ ~ In (MExclMin true) (markers_of set b).
(** Fields with different names *)
Definition tame_type (ignore_unexported : bool) (pkg_markers : marker_values) (ti : tinfo) : Prop :=
  tame_markers (ti_markers ti) /\ Forall (fun f => tame_markers (fi_markers f)) (ti_fields ti) /\
  (forall e, ti_raw ti <> EStar e) /\
  (forall a f b g c n q q', ti_fields ti = a ++ f :: b ++ g :: c -> plays ignore_unexported pkg_markers f (Member n false q) -> plays ignore_unexported pkg_markers g (Member n false q') -> False).

Section Tame.
  Variable order : marker_values -> marker_values.
  Variable sorted : list (string * smarker) -> list (string * smarker).
  Variable allow_dangerous ignore_unexported : bool.
  Variable imports : string -> string -> bool.
  Variable pkg_markers : string -> marker_values.
  Variable types : ident -> option tinfo.
  Variable presets : string -> list (string * schema).
  Notation needed := (needed order sorted allow_dangerous ignore_unexported imports pkg_markers types presets).
  Notation preset id := (mget String.eqb (presets (fst id)) (snd id)).

  (** [uses id id']: making the schema of id takes that of id'; [renames id id']: the schema of id is a reference to id' *)
  Definition uses (id id' : ident) : Prop := exists ti s reqs errs r,
    types id = Some ti /\ generated order sorted allow_dangerous ignore_unexported imports pkg_markers id ti = Done s reqs errs /\ In r reqs /\ id' = target id r.
  Definition renames (id id' : ident) : Prop := exists ti s reqs errs p n,
    types id = Some ti /\ generated order sorted allow_dangerous ignore_unexported imports pkg_markers id ti = Done s reqs errs /\
    In (p, n) reqs /\ k_ref (s_kw s) = Some (type_ref_link p n) /\ id' = target id (p, n).
  Record tame (root : ident) (rank : ident -> nat) : Prop := {
    (* no type contains itself *)
    tame_rank : forall id id', needed [root] id -> preset id = None -> uses id id' -> rank id' < rank id;
    tame_names : forall id, needed [root] id -> has_char "~"%char (fst id) = false /\ has_char "~"%char (snd id) = false;
    (* no two types of one name in a row of types each of which is only another name for the next *)
    tame_chain : forall id id', needed [root] id -> clos_trans _ renames id id' -> snd id <> snd id';
    tame_types : forall id ti, needed [root] id -> preset id = None -> types id = Some ti -> tame_type ignore_unexported (pkg_markers (fst id)) ti;
    (* schemas that are set have no references *)
    tame_sets : forall p n s, mget String.eqb (presets p) n = Some s -> plain s }.
End Tame.
