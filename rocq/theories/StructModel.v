(** * Model of the generation of schemas from Go types: pkg/crd/schema.go.
    Definitions only.

    The type checker's answers are part of the type expressions: an identifier or selector carries the go/types type it
    denotes. Generic types and type parameters are left out. Packages are import paths; "" is the package the type is in. *)

From Coq Require Import List String Ascii Bool.
From Verif Require Import GoLib SchemaModel RefModel ErrorsModel MarkModel.
Import ListNotations.
Open Scope string_scope.
Open Scope list_scope.

(** ** go/types and go/ast *)
Inductive bkind := BBool | BInt | BInt8 | BInt16 | BInt32 | BInt64 | BUint | BUint8 | BUint16 | BUint32 | BUint64 | BUintptr
  | BFloat32 | BFloat64 | BComplex64 | BComplex128 | BString | BUnsafePointer.
(** go/types: Basic.Info *)
Inductive binfo := IsBoolean | IsString | IsInteger | IsFloat | IsOther.
(** go/types: Basic.Info, used in pkg/crd/schema.go:496-526 *)
Definition basic_info (k : bkind) : binfo :=
  match k with
  | BBool => IsBoolean | BString => IsString
  | BInt | BInt8 | BInt16 | BInt32 | BInt64 | BUint | BUint8 | BUint16 | BUint32 | BUint64 | BUintptr => IsInteger
  | BFloat32 | BFloat64 => IsFloat | BComplex64 | BComplex128 | BUnsafePointer => IsOther
  end.
(** The package of a type name: none for predeclared types, this one, or another by its path. go/types: TypeName.Pkg,
    used in pkg/crd/schema.go:261-327. *)
Inductive owner := OUniverse | OHere | OPkg (path : string).
(** What the type checker says. [TBasic]: with its name (byte and rune are their own objects). [TOther]: types
    without a name. go/types, as pkg/crd/schema.go:261-396 looks at it. *)
Inductive gtyp := TInvalid | TBasic (k : bkind) (name : string) | TNamed (o : owner) (name : string) (underlying : gtyp)
  | TAlias (o : owner) (name : string) (rhs : gtyp) | TOther.
(** go/types: Universe.Lookup("byte").Type() *)
Definition is_byte_type (t : gtyp) : bool := match t with TBasic BUint8 name => String.eqb name "byte" | _ => false end.
(** Type expressions. The fields of struct types are in the type's information. go/ast, as pkg/crd/schema.go:215-241
    tells it apart. *)
Inductive texpr := EIdent (name : string) (t : gtyp) | ESel (t : gtyp) | EArray (sized : bool) (elt : texpr) | EMap (key : gtyp) (value : texpr)
  | EStar (e : texpr) | EStruct | EOther.
(** ctx.pkg.TypesInfo.TypeOf, pkg/crd/schema.go:262 and :313 *)
Definition type_of (e : texpr) : gtyp := match e with EIdent _ t => t | ESel t => t | _ => TOther end.

(** pkg/markers/zip.go:140-169: FieldInfo and TypeInfo. [f_json]: the value of the json tag *)
Record finfo := mkFInfo { fi_name : string; fi_exported : bool; fi_doc : string; fi_json : option string; fi_markers : marker_values; fi_type : texpr }.
(** [ti_json], [ti_text]: the type, or a pointer to it, has a MarshalJSON or MarshalText method.
    pkg/markers/zip.go:157-169. *)
Record tinfo := mkTInfo { ti_name : string; ti_doc : string; ti_markers : marker_values; ti_fields : list finfo; ti_raw : texpr; ti_json : bool; ti_text : bool }.

(** ** Results: a value with the schemas requested and the errors added meanwhile, or a panic. The calls of AddError
    in pkg/crd/schema.go:114-526. *)
Inductive gerr := GUnknown | GBuiltin | GMapKey | GMapValue | GAst | GNested | GNoTag (field : string) | GText | GMarker (name : string).
(** How a function of pkg/crd/schema.go:114-526 ends *)
Inductive res (A : Type) := Done (a : A) (reqs : list (string * string)) (errs : list gerr) | Panic.
Arguments Done {A}. Arguments Panic {A}.
(** How a function of pkg/crd/schema.go:114-526 ends *)
Definition ret {A} (a : A) : res A := Done a [] [].
(** How a function of pkg/crd/schema.go:114-526 ends *)
Definition bind {A B} (x : res A) (f : A -> res B) : res B :=
  match x with
  | Panic => Panic
  | Done a r e => match f a with Panic => Panic | Done b r' e' => Done b (r ++ r') (e ++ e') end
  end.
(** AddError and a result, as at pkg/crd/schema.go:264-265 *)
Definition fails {A} (a : A) (e : gerr) : res A := Done a [] [e].

Section Schema.
  Variable order : marker_values -> marker_values.
  Variable sorted : list (string * smarker) -> list (string * smarker).
  (** The paths the package imports *)
  Variable imports : string -> bool.
  (** pkg/crd/schema.go:72-73 *)
  Variable allow_dangerous ignore_unexported : bool.
  (** ctx.PackageMarkers *)
  Variable pkg_markers : marker_values.

  (** pkg/crd/schema.go:102-111; NeedSchemaFor panics for a nil package *)
  Definition request (path name : string) : res unit := if String.eqb path "" || imports path then Done tt [(path, name)] [] else Panic.

  (** pkg/crd/schema.go:146-212 *)
  Definition with_markers (ms : marker_values) (s : schema) : res schema :=
    let '(s', errs) := apply_markers order sorted ms s in Done s' [] (map GMarker errs).

  (** pkg/crd/schema.go:496-526; None: an error *)
  Definition builtin_to_type (k : bkind) : option (string * string) :=
    let format := match k with BInt32 | BUint32 => "int32" | BInt64 | BUint64 => "int64" | _ => "" end in
    match basic_info k with
    | IsBoolean => Some ("boolean", format)
    | IsString => Some ("string", format)
    | IsInteger => Some ("integer", format)
    | IsFloat => if allow_dangerous then Some ("number", format) else None
    | IsOther => None
    end.

  (** The schemas of pkg/crd/schema.go:274-282 *)
  Definition typed (t f : string) : schema := set_format (set_type schema0 t) f.
  (** The schemas of pkg/crd/schema.go:286-308 and :324-326 *)
  Definition ref_to (path name : string) : schema := set_ref schema0 (Some (type_ref_link path name)).

  (** pkg/crd/schema.go:259-309 *)
  Definition obj_of (t : gtyp) : option (owner * string) := match t with TNamed o n _ | TAlias o n _ => Some (o, n) | _ => None end.
  (** pkg/crd/schema.go:261-309 *)
  Definition local_named (name : string) (t : gtyp) : res schema :=
    match t with
    | TInvalid => fails schema0 GUnknown
    | _ =>
        let t' := match t with TAlias _ _ rhs => rhs | _ => t end in
        match t' with
        | TBasic k bname =>
            bind (match builtin_to_type k with Some r => ret r | None => fails ("", "") GBuiltin end) (fun '(typ, fmt) =>
            if negb (String.eqb bname name) then bind (request "" name) (fun _ => ret (set_ref (typed typ fmt) (Some (type_ref_link "" name))))
            else ret (typed typ fmt))
        (* an alias of an unknown type; that type is a Basic, too *)
        | TInvalid => bind (fails ("", "") GBuiltin) (fun '(typ, fmt) => bind (request "" name) (fun _ => ret (set_ref (typed typ fmt) (Some (type_ref_link "" name)))))
        | _ =>
            match obj_of t' with
            | Some (OHere, n) => bind (request "" n) (fun _ => ret (ref_to "" n))
            | Some (OPkg p, n) => let path := non_vendor_path p in bind (request path n) (fun _ => ret (ref_to path n))
            | Some (OUniverse, _) | None => Panic
            end
        end
    end.

  (** pkg/crd/schema.go:311-327. A selector never denotes a type of this package. *)
  Definition named (t : gtyp) : res schema :=
    match t with
    | TInvalid => fails schema0 GUnknown
    | _ =>
        match obj_of t with
        | Some (OPkg p, n) => let path := non_vendor_path p in bind (request path n) (fun _ => ret (ref_to path n))
        | _ => Panic
        end
    end.

  (** pkg/crd/schema.go:353-369: do map keys come down to strings? *)
  Fixpoint string_key (t : gtyp) : bool :=
    match t with
    | TBasic k _ => match basic_info k with IsString => true | _ => false end
    | TNamed _ _ u => string_key u
    | _ => false
    end.

  (** pkg/crd/schema.go:214-241, 329-348, 350-396. [structs] and [structs_below]: what a struct gives here, and below a pointer *)
  Fixpoint type_to_schema (structs structs_below : res schema) (doc : string) (ms : marker_values) (e : texpr) : res schema :=
    let array sized elt :=
      if is_byte_type (type_of elt) && negb sized then ret (typed "string" "byte")
      else bind (type_to_schema Panic Panic "" [] elt) (fun items => ret (set_items (set_type schema0 "array") (Some (Some items, [])))) in
    let post (r : res schema) := bind r (fun s => with_markers ms (set_desc s doc)) in
    match e with
    | EIdent name t => post (local_named name t)
    | ESel t => post (named t)
    | EArray sized elt => post (array sized elt)
    | EMap key value =>
        post
        (if negb (string_key key) then fails schema0 GMapKey
         else
           let wrap r := bind r (fun v => ret (set_addl (set_type schema0 "object") (Some (true, Some v)))) in
           match value with
           | EIdent name t => wrap (local_named name t)
           | ESel t => wrap (named t)
           | EArray sized elt =>
               wrap (if is_byte_type (type_of elt) && negb sized then ret (typed "string" "byte")
                     else bind (type_to_schema Panic Panic "" [] elt) (fun items => ret (set_items (set_type schema0 "array") (Some (Some items, [])))))
           | EStar _ | EMap _ _ => wrap (type_to_schema Panic Panic "" [] value)
           | EStruct | EOther => fails schema0 GMapValue
           end)
    | EStar x => post (type_to_schema structs_below structs_below doc ms x)
    | EStruct => post structs
    | EOther => fails schema0 GAst
    end.

  (** pkg/crd/schema.go:411-488 *)
  Definition field_step (f : finfo) (props : schema) : res schema :=
    if negb (String.eqb (fi_name f) "") && ignore_unexported && negb (fi_exported f) then ret props
    else match fi_json f with
    | None => fails props (GNoTag (fi_name f))
    | Some tag =>
        let opts := split_char "," tag in
        if Nat.eqb (List.length opts) 1 && String.eqb (hd "" opts) "-" then ret props
        else
          let name := hd "" opts in
          let inline := mem_str "inline" (tl opts) || String.eqb name "" in
          let omit := mem_str "omitempty" (tl opts) in
          let optional_mode := has_marker pkg_markers "kubebuilder:validation:Optional" in
          let add := set_required props (k_required (s_kw props) ++ [name]) in
          let props1 :=
            if has_marker (fi_markers f) "kubebuilder:validation:Optional" then props
            else if has_marker (fi_markers f) "kubebuilder:validation:Required" then add
            else if has_marker (fi_markers f) "optional" then props
            else if has_marker (fi_markers f) "required" then add
            else if negb optional_mode then (if negb inline && negb omit then add else props)
            else props in
          bind (if has_marker (fi_markers f) "kubebuilder:validation:Schemaless" then ret schema0 else type_to_schema Panic Panic "" [] (fi_type f)) (fun s =>
          bind (with_markers (fi_markers f) (set_desc s (fi_doc f))) (fun s' =>
          ret (if inline then set_allOf props1 (s_allOf props1 ++ [s']) else set_props props1 (mset String.eqb (s_props props1) name s'))))
    end.
  (** The loop of pkg/crd/schema.go:413-489 *)
  Fixpoint fields_to_schema (fs : list finfo) (props : schema) : res schema :=
    match fs with [] => ret props | f :: fs' => bind (field_step f props) (fields_to_schema fs') end.

  (** pkg/crd/schema.go:113-139, with structs at the top of the type, and behind pointers *)
  Definition spec_to_schema (ti : tinfo) : res schema :=
    let obj := set_type schema0 "object" in
    type_to_schema (fields_to_schema (ti_fields ti) obj) (fails obj GNested) (ti_doc ti) (ti_markers ti) (ti_raw ti).
  (** pkg/crd/schema.go:114-139 *)
  Definition info_to_schema (ti : tinfo) : res schema :=
    if ti_json ti then
      bind (with_markers (ti_markers ti) schema0) (fun s => if negb (String.eqb (k_type (s_kw s)) "") then ret s else spec_to_schema ti)
    else if ti_text ti then
      bind (with_markers (ti_markers ti) (set_type schema0 "string")) (fun s => if negb (String.eqb (k_type (s_kw s)) "string") then fails s GText else ret s)
    else spec_to_schema ti.
End Schema.
