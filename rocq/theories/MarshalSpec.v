(** * The JSON that encoding/json writes for values of Go types. From the documentation of encoding/json; independent of the generator.

    Left out: nil pointers, slices and maps (written as null), interfaces, MarshalJSON methods (types with an override apart), nil embedded
    pointers, embedded types that are not structs, fields hidden by others of the same name. *)
From Coq Require Import List String Ascii Bool ZArith QArith.
From Verif Require Import GoLib SchemaModel ErrorsModel ValidSpec MarkModel StructModel FlattenModel NeedModel StructSpec.
Import ListNotations.
Open Scope string_scope.
Open Scope list_scope.

(** Values of basic types *)
Definition int_range (k : bkind) : option (Z * Z) :=
  match k with
  | BInt8 => Some (- 2 ^ 7, 2 ^ 7 - 1) | BInt16 => Some (- 2 ^ 15, 2 ^ 15 - 1) | BInt32 => Some (- 2 ^ 31, 2 ^ 31 - 1) | BInt | BInt64 => Some (- 2 ^ 63, 2 ^ 63 - 1)
  | BUint8 => Some (0, 2 ^ 8 - 1) | BUint16 => Some (0, 2 ^ 16 - 1) | BUint32 => Some (0, 2 ^ 32 - 1) | BUint | BUint64 | BUintptr => Some (0, 2 ^ 64 - 1)
  | _ => None
  end%Z.
Inductive basic_json : bkind -> json -> Prop :=
| bj_bool b : basic_json BBool (JBool b)
| bj_string s : basic_json BString (JStr s)
| bj_int k lo hi z : int_range k = Some (lo, hi) -> (lo <= z <= hi)%Z -> basic_json k (JNum (inject_Z z))
| bj_float k q : k = BFloat32 \/ k = BFloat64 -> basic_json k (JNum q).
(** A type whose values are bytes, whatever its name: slices of it are written in base64 *)
Fixpoint byte_like (t : gtyp) : bool := match t with TBasic BUint8 _ => true | TNamed _ _ u => byte_like u | TAlias _ _ u => byte_like u | _ => false end.

(** Where a field goes *)
Inductive place := Nowhere | Under (key : string) (omitempty : bool) | Spread.
Inductive goes (f : finfo) : place -> Prop :=
| goes_dash : fi_json f = Some "-" -> goes f Nowhere
| goes_private : fi_name f <> "" -> fi_exported f = false -> goes f Nowhere
| goes_tag tag n opts omit : fi_json f = Some tag -> tag <> "-" -> tag_parts tag n opts -> n <> "" -> (fi_name f = "" \/ fi_exported f = true) ->
    (omit = true <-> In "omitempty" opts) -> goes f (Under n omit)
| goes_name tag opts omit : fi_json f = Some tag -> tag_parts tag "" opts -> fi_name f <> "" -> fi_exported f = true ->
    (omit = true <-> In "omitempty" opts) -> goes f (Under (fi_name f) omit)
| goes_untagged : fi_json f = None -> fi_name f <> "" -> fi_exported f = true -> goes f (Under (fi_name f) false)
| goes_embedded tag opts : fi_json f = Some tag -> tag_parts tag "" opts -> fi_name f = "" -> goes f Spread
| goes_embedded_untagged : fi_json f = None -> fi_name f = "" -> goes f Spread.

Section Encoding.
  Variable types : ident -> option tinfo.
  (** The JSON of types with an override, and base64 *)
  Variable override : ident -> json -> Prop.
  Variable base64 : string -> Prop.
  (** [encodes id j]: j is written for a value of type id, or an object with everything written for one (a struct's object when it is embedded) *)
  Inductive encodes : ident -> json -> Prop :=
  | enc_override id j : override id j -> encodes id j
  | enc_text id ti s : types id = Some ti -> ti_json ti = false -> ti_text ti = true -> encodes id (JStr s)
  | enc_struct id ti l : types id = Some ti -> ti_json ti = false -> ti_text ti = false -> ti_raw ti = EStruct ->
      (forall f n omit, In f (ti_fields ti) -> goes f (Under n omit) -> omit = false -> mget String.eqb l n <> None) ->
      (forall f n omit v, In f (ti_fields ti) -> goes f (Under n omit) -> mget String.eqb l n = Some v -> writes (fst id) (fi_type f) v) ->
      (forall f, In f (ti_fields ti) -> goes f Spread -> writes (fst id) (fi_type f) (JObj l)) ->
      encodes id (JObj l)
  | enc_other id ti j : types id = Some ti -> ti_json ti = false -> ti_text ti = false -> ti_raw ti <> EStruct -> writes (fst id) (ti_raw ti) j -> encodes id j
  (** [writes pkg e j]: the same for a type expression in a package *)
  with writes : string -> texpr -> json -> Prop :=
  | wr_basic pkg n k j : basic_json k j -> writes pkg (EIdent n (TBasic k n)) j
  | wr_here pkg n m u j : encodes (pkg, m) j -> writes pkg (EIdent n (TNamed OHere m u)) j
  | wr_dot pkg n p m u j : non_vendor_path p <> "" -> encodes (non_vendor_path p, m) j -> writes pkg (EIdent n (TNamed (OPkg p) m u)) j
  | wr_alias pkg n k b j : basic_json k j -> encodes (pkg, n) j -> writes pkg (EIdent n (TAlias OHere n (TBasic k b))) j
  | wr_alias_here pkg n m u j : encodes (pkg, m) j -> writes pkg (EIdent n (TAlias OHere n (TNamed OHere m u))) j
  | wr_alias_pkg pkg n p m u j : non_vendor_path p <> "" -> encodes (non_vendor_path p, m) j -> writes pkg (EIdent n (TAlias OHere n (TNamed (OPkg p) m u))) j
  | wr_sel pkg p m u j : non_vendor_path p <> "" -> encodes (non_vendor_path p, m) j -> writes pkg (ESel (TNamed (OPkg p) m u)) j
  | wr_sel_alias pkg p m u j : non_vendor_path p <> "" -> encodes (non_vendor_path p, m) j -> writes pkg (ESel (TAlias (OPkg p) m u)) j
  | wr_bytes pkg e s : byte_like (type_of e) = true -> base64 s -> writes pkg (EArray false e) (JStr s)
  | wr_array pkg sized e l : ~ (byte_like (type_of e) = true /\ sized = false) -> (forall x, In x l -> writes pkg e x) -> writes pkg (EArray sized e) (JArr l)
  | wr_map pkg k v l : (forall key x, In (key, x) l -> writes pkg v x) -> writes pkg (EMap k v) (JObj l)
  | wr_star pkg e j : writes pkg e j -> writes pkg (EStar e) j.
End Encoding.
Scheme encodes_ind2 := Minimality for encodes Sort Prop with writes_ind2 := Minimality for writes Sort Prop.
Combined Scheme encoding_ind from encodes_ind2, writes_ind2.

(** ** Types the schema is right for *)
(** No schema markers *)
Definition unmarked (set : marker_values) : Prop := forall name vs m, In (name, vs) set -> ~ In (VSchema m) vs.
(** No slices of bytes under another name; no types whose format is that of another *)
Fixpoint faithful (e : texpr) : Prop :=
  match e with
  | EIdent n (TBasic k _) | EIdent n (TAlias _ _ (TBasic k _)) => k <> BUint32 /\ k <> BUint64
  | EArray sized elt => (sized = false -> byte_like (type_of elt) = is_byte_type (type_of elt)) /\ faithful elt
  | EMap _ v => faithful v
  | EStar e => faithful e
  | _ => True
  end.
(** Fields that go where the schema has them, and are required only if always written *)
Definition proper (ignore_unexported : bool) (pkg_markers : marker_values) (f : finfo) : Prop :=
  unmarked (fi_markers f) /\ faithful (fi_type f) /\
  (fi_name f <> "" -> fi_exported f = false -> ignore_unexported = true \/ fi_json f = Some "-") /\
  (forall tag n opts, fi_json f = Some tag -> tag_parts tag n opts -> (In "inline" opts -> n = "") /\ (n = "" -> fi_name f = "") /\
     forall inline, plays ignore_unexported pkg_markers f (Member n inline true) -> n <> "" /\ ~ In "omitempty" opts).
Definition proper_type (ignore_unexported : bool) (pkg_markers : marker_values) (ti : tinfo) : Prop :=
  unmarked (ti_markers ti) /\ (ti_raw ti = EStruct -> Forall (proper ignore_unexported pkg_markers) (ti_fields ti)) /\ faithful (ti_raw ti).
(** The types without an override *)
Definition uncovered (types : ident -> option tinfo) (presets : string -> list (string * schema)) (id : ident) : option tinfo :=
  match mget String.eqb (presets (fst id)) (snd id) with Some _ => None | None => types id end.
(** What validation is to make of formats and references: formats accept the values they are for, a reference what its type's schema accepts. *)
Section Oracles.
  Variable O : string -> oracles.
  Variable base64 : string -> Prop.
  Variable schema_of : ident -> option schema.
  Record sensible : Prop := {
    sens_byte : forall p s, base64 s -> o_format (O p) "byte" (JStr s) = true;
    sens_int32 : forall p z, (- 2 ^ 31 <= z <= 2 ^ 31 - 1)%Z -> o_format (O p) "int32" (JNum (inject_Z z)) = true;
    sens_int64 : forall p z, (- 2 ^ 63 <= z <= 2 ^ 63 - 1)%Z -> o_format (O p) "int64" (JNum (inject_Z z)) = true;
    sens_ref : forall p r id s j, refers p r id -> schema_of id = Some s -> valid (O (fst id)) s j = true -> o_ref (O p) r j = true }.
End Oracles.
