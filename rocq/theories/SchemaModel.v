(** * The schema tree: apiext.JSONSchemaProps as pkg/crd uses it. Definitions only. *)

From Coq Require Import List String ZArith QArith Bool.
From Verif Require Import GoLib.
Import ListNotations.
Open Scope string_scope.
Open Scope list_scope.

(** JSON values. apiext.JSON holds their text (pkg/crd/markers/validation.go marshals values into it); the model
    holds the value. Numbers are rationals: NaN and infinities are not JSON. *)
Inductive json :=
| JNull | JBool (b : bool) | JNum (q : Q) | JStr (s : string)
| JArr (l : list json) | JObj (l : list (string * json)).

(** apiext.ValidationRule, pkg/crd/markers/validation.go:346-353 (all its fields are strings or flags). *)
Record vrule := mkVrule { vr_rule : string; vr_message : string; vr_messageExpr : string; vr_reason : string;
                          vr_fieldPath : string; vr_optionalOldSelf : option bool }.

(** The keywords of apiext.JSONSchemaProps that hold no subschema. Go nil pointers are [None], nil slices and
    nil maps are []; a non-nil empty slice is not distinguished from nil. apiext.JSONSchemaProps, the fields that
    hold no schemas; those that pkg/crd/flatten.go:58-162 goes over. *)
Record kw := mkKw {
  k_id : string;
  k_schema_uri : string;
  k_ref : option string;
  k_desc : string;
  k_type : string;
  k_format : string;
  k_title : string;
  k_default : option json;
  k_maximum : option Q;
  k_excl_max : bool;
  k_minimum : option Q;
  k_excl_min : bool;
  k_max_length : option Z;
  k_min_length : option Z;
  k_pattern : string;
  k_max_items : option Z;
  k_min_items : option Z;
  k_unique_items : bool;
  k_multiple_of : option Q;
  k_enum : list json;
  k_max_props : option Z;
  k_min_props : option Z;
  k_required : list string;
  k_ext_docs : option (string * string);
  k_example : option json;
  k_nullable : bool;
  k_x_preserve : option bool;
  k_x_embedded : bool;
  k_x_int_or_string : bool;
  k_x_list_map_keys : list string;
  k_x_list_type : option string;
  k_x_map_type : option string;
  k_x_validations : list vrule }.

(** The zero value, as at pkg/crd/flatten.go:63 *)
Definition kw0 : kw :=
  mkKw "" "" None "" "" "" "" None None false None false None None "" None None false None [] None None [] None None false None false false [] None None [].

(** apiext.JSONSchemaProps; the recursive fields in the order pkg/crd/schema_visitor.go:81-103 walks them.
    JSONSchemaPropsOrArray is (Schema, JSONSchemas), JSONSchemaPropsOrBool is (Allows, Schema),
    JSONSchemaPropsOrStringArray is (Schema, Property). *)
Inductive schema := Sch {
  s_kw : kw;
  s_items : option (option schema * list schema);
  s_allOf : list schema;
  s_oneOf : list schema;
  s_anyOf : list schema;
  s_not : option schema;
  s_props : list (string * schema);
  s_addl : option (bool * option schema);
  s_patprops : list (string * schema);
  s_deps : list (string * (option schema * list string));
  s_addl_items : option (bool * option schema);
  s_defs : list (string * schema) }.

(** The zero value apiext.JSONSchemaProps{}, pkg/crd/flatten.go:63. *)
Definition schema0 : schema := Sch kw0 None [] [] [] None [] None [] [] None [].

(** Field assignment, [schema.Field = v]. pkg/crd/flatten.go:70-162 (through reflection only). *)
Definition set_k_id (k : kw) (v : string) : kw :=
  mkKw v (k_schema_uri k) (k_ref k) (k_desc k) (k_type k) (k_format k) (k_title k) (k_default k) (k_maximum k) (k_excl_max k) (k_minimum k) (k_excl_min k) (k_max_length k) (k_min_length k) (k_pattern k) (k_max_items k) (k_min_items k) (k_unique_items k) (k_multiple_of k) (k_enum k) (k_max_props k) (k_min_props k) (k_required k) (k_ext_docs k) (k_example k) (k_nullable k) (k_x_preserve k) (k_x_embedded k) (k_x_int_or_string k) (k_x_list_map_keys k) (k_x_list_type k) (k_x_map_type k) (k_x_validations k).
(** pkg/crd/flatten.go:70-162 (through reflection only) *)
Definition set_k_schema_uri (k : kw) (v : string) : kw :=
  mkKw (k_id k) v (k_ref k) (k_desc k) (k_type k) (k_format k) (k_title k) (k_default k) (k_maximum k) (k_excl_max k) (k_minimum k) (k_excl_min k) (k_max_length k) (k_min_length k) (k_pattern k) (k_max_items k) (k_min_items k) (k_unique_items k) (k_multiple_of k) (k_enum k) (k_max_props k) (k_min_props k) (k_required k) (k_ext_docs k) (k_example k) (k_nullable k) (k_x_preserve k) (k_x_embedded k) (k_x_int_or_string k) (k_x_list_map_keys k) (k_x_list_type k) (k_x_map_type k) (k_x_validations k).
(** pkg/crd/flatten.go:343, schema.go:288 *)
Definition set_k_ref (k : kw) (v : option string) : kw :=
  mkKw (k_id k) (k_schema_uri k) v (k_desc k) (k_type k) (k_format k) (k_title k) (k_default k) (k_maximum k) (k_excl_max k) (k_minimum k) (k_excl_min k) (k_max_length k) (k_min_length k) (k_pattern k) (k_max_items k) (k_min_items k) (k_unique_items k) (k_multiple_of k) (k_enum k) (k_max_props k) (k_min_props k) (k_required k) (k_ext_docs k) (k_example k) (k_nullable k) (k_x_preserve k) (k_x_embedded k) (k_x_int_or_string k) (k_x_list_map_keys k) (k_x_list_type k) (k_x_map_type k) (k_x_validations k).
(** pkg/crd/desc_visitor.go:48, flatten.go:355 *)
Definition set_k_desc (k : kw) (v : string) : kw :=
  mkKw (k_id k) (k_schema_uri k) (k_ref k) v (k_type k) (k_format k) (k_title k) (k_default k) (k_maximum k) (k_excl_max k) (k_minimum k) (k_excl_min k) (k_max_length k) (k_min_length k) (k_pattern k) (k_max_items k) (k_min_items k) (k_unique_items k) (k_multiple_of k) (k_enum k) (k_max_props k) (k_min_props k) (k_required k) (k_ext_docs k) (k_example k) (k_nullable k) (k_x_preserve k) (k_x_embedded k) (k_x_int_or_string k) (k_x_list_map_keys k) (k_x_list_type k) (k_x_map_type k) (k_x_validations k).
(** pkg/crd/markers/validation.go:513, schema.go:402 *)
Definition set_k_type (k : kw) (v : string) : kw :=
  mkKw (k_id k) (k_schema_uri k) (k_ref k) (k_desc k) v (k_format k) (k_title k) (k_default k) (k_maximum k) (k_excl_max k) (k_minimum k) (k_excl_min k) (k_max_length k) (k_min_length k) (k_pattern k) (k_max_items k) (k_min_items k) (k_unique_items k) (k_multiple_of k) (k_enum k) (k_max_props k) (k_min_props k) (k_required k) (k_ext_docs k) (k_example k) (k_nullable k) (k_x_preserve k) (k_x_embedded k) (k_x_int_or_string k) (k_x_list_map_keys k) (k_x_list_type k) (k_x_map_type k) (k_x_validations k).
(** pkg/crd/markers/validation.go:503 *)
Definition set_k_format (k : kw) (v : string) : kw :=
  mkKw (k_id k) (k_schema_uri k) (k_ref k) (k_desc k) (k_type k) v (k_title k) (k_default k) (k_maximum k) (k_excl_max k) (k_minimum k) (k_excl_min k) (k_max_length k) (k_min_length k) (k_pattern k) (k_max_items k) (k_min_items k) (k_unique_items k) (k_multiple_of k) (k_enum k) (k_max_props k) (k_min_props k) (k_required k) (k_ext_docs k) (k_example k) (k_nullable k) (k_x_preserve k) (k_x_embedded k) (k_x_int_or_string k) (k_x_list_map_keys k) (k_x_list_type k) (k_x_map_type k) (k_x_validations k).
(** pkg/crd/flatten.go:358, markers/validation.go:553 *)
Definition set_k_title (k : kw) (v : string) : kw :=
  mkKw (k_id k) (k_schema_uri k) (k_ref k) (k_desc k) (k_type k) (k_format k) v (k_default k) (k_maximum k) (k_excl_max k) (k_minimum k) (k_excl_min k) (k_max_length k) (k_min_length k) (k_pattern k) (k_max_items k) (k_min_items k) (k_unique_items k) (k_multiple_of k) (k_enum k) (k_max_props k) (k_min_props k) (k_required k) (k_ext_docs k) (k_example k) (k_nullable k) (k_x_preserve k) (k_x_embedded k) (k_x_int_or_string k) (k_x_list_map_keys k) (k_x_list_type k) (k_x_map_type k) (k_x_validations k).
(** pkg/crd/markers/validation.go:535 and :576 *)
Definition set_k_default (k : kw) (v : option json) : kw :=
  mkKw (k_id k) (k_schema_uri k) (k_ref k) (k_desc k) (k_type k) (k_format k) (k_title k) v (k_maximum k) (k_excl_max k) (k_minimum k) (k_excl_min k) (k_max_length k) (k_min_length k) (k_pattern k) (k_max_items k) (k_min_items k) (k_unique_items k) (k_multiple_of k) (k_enum k) (k_max_props k) (k_min_props k) (k_required k) (k_ext_docs k) (k_example k) (k_nullable k) (k_x_preserve k) (k_x_embedded k) (k_x_int_or_string k) (k_x_list_map_keys k) (k_x_list_type k) (k_x_map_type k) (k_x_validations k).
(** pkg/crd/markers/validation.go:365 *)
Definition set_k_maximum (k : kw) (v : option Q) : kw :=
  mkKw (k_id k) (k_schema_uri k) (k_ref k) (k_desc k) (k_type k) (k_format k) (k_title k) (k_default k) v (k_excl_max k) (k_minimum k) (k_excl_min k) (k_max_length k) (k_min_length k) (k_pattern k) (k_max_items k) (k_min_items k) (k_unique_items k) (k_multiple_of k) (k_enum k) (k_max_props k) (k_min_props k) (k_required k) (k_ext_docs k) (k_example k) (k_nullable k) (k_x_preserve k) (k_x_embedded k) (k_x_int_or_string k) (k_x_list_map_keys k) (k_x_list_type k) (k_x_map_type k) (k_x_validations k).
(** pkg/crd/markers/validation.go:387 *)
Definition set_k_excl_max (k : kw) (v : bool) : kw :=
  mkKw (k_id k) (k_schema_uri k) (k_ref k) (k_desc k) (k_type k) (k_format k) (k_title k) (k_default k) (k_maximum k) v (k_minimum k) (k_excl_min k) (k_max_length k) (k_min_length k) (k_pattern k) (k_max_items k) (k_min_items k) (k_unique_items k) (k_multiple_of k) (k_enum k) (k_max_props k) (k_min_props k) (k_required k) (k_ext_docs k) (k_example k) (k_nullable k) (k_x_preserve k) (k_x_embedded k) (k_x_int_or_string k) (k_x_list_map_keys k) (k_x_list_type k) (k_x_map_type k) (k_x_validations k).
(** pkg/crd/markers/validation.go:379 *)
Definition set_k_minimum (k : kw) (v : option Q) : kw :=
  mkKw (k_id k) (k_schema_uri k) (k_ref k) (k_desc k) (k_type k) (k_format k) (k_title k) (k_default k) (k_maximum k) (k_excl_max k) v (k_excl_min k) (k_max_length k) (k_min_length k) (k_pattern k) (k_max_items k) (k_min_items k) (k_unique_items k) (k_multiple_of k) (k_enum k) (k_max_props k) (k_min_props k) (k_required k) (k_ext_docs k) (k_example k) (k_nullable k) (k_x_preserve k) (k_x_embedded k) (k_x_int_or_string k) (k_x_list_map_keys k) (k_x_list_type k) (k_x_map_type k) (k_x_validations k).
(** pkg/crd/markers/validation.go:396 *)
Definition set_k_excl_min (k : kw) (v : bool) : kw :=
  mkKw (k_id k) (k_schema_uri k) (k_ref k) (k_desc k) (k_type k) (k_format k) (k_title k) (k_default k) (k_maximum k) (k_excl_max k) (k_minimum k) v (k_max_length k) (k_min_length k) (k_pattern k) (k_max_items k) (k_min_items k) (k_unique_items k) (k_multiple_of k) (k_enum k) (k_max_props k) (k_min_props k) (k_required k) (k_ext_docs k) (k_example k) (k_nullable k) (k_x_preserve k) (k_x_embedded k) (k_x_int_or_string k) (k_x_list_map_keys k) (k_x_list_type k) (k_x_map_type k) (k_x_validations k).
(** pkg/crd/markers/validation.go:419 *)
Definition set_k_max_length (k : kw) (v : option Z) : kw :=
  mkKw (k_id k) (k_schema_uri k) (k_ref k) (k_desc k) (k_type k) (k_format k) (k_title k) (k_default k) (k_maximum k) (k_excl_max k) (k_minimum k) (k_excl_min k) v (k_min_length k) (k_pattern k) (k_max_items k) (k_min_items k) (k_unique_items k) (k_multiple_of k) (k_enum k) (k_max_props k) (k_min_props k) (k_required k) (k_ext_docs k) (k_example k) (k_nullable k) (k_x_preserve k) (k_x_embedded k) (k_x_int_or_string k) (k_x_list_map_keys k) (k_x_list_type k) (k_x_map_type k) (k_x_validations k).
(** pkg/crd/markers/validation.go:428 *)
Definition set_k_min_length (k : kw) (v : option Z) : kw :=
  mkKw (k_id k) (k_schema_uri k) (k_ref k) (k_desc k) (k_type k) (k_format k) (k_title k) (k_default k) (k_maximum k) (k_excl_max k) (k_minimum k) (k_excl_min k) (k_max_length k) v (k_pattern k) (k_max_items k) (k_min_items k) (k_unique_items k) (k_multiple_of k) (k_enum k) (k_max_props k) (k_min_props k) (k_required k) (k_ext_docs k) (k_example k) (k_nullable k) (k_x_preserve k) (k_x_embedded k) (k_x_int_or_string k) (k_x_list_map_keys k) (k_x_list_type k) (k_x_map_type k) (k_x_validations k).
(** pkg/crd/markers/validation.go:436 *)
Definition set_k_pattern (k : kw) (v : string) : kw :=
  mkKw (k_id k) (k_schema_uri k) (k_ref k) (k_desc k) (k_type k) (k_format k) (k_title k) (k_default k) (k_maximum k) (k_excl_max k) (k_minimum k) (k_excl_min k) (k_max_length k) (k_min_length k) v (k_max_items k) (k_min_items k) (k_unique_items k) (k_multiple_of k) (k_enum k) (k_max_props k) (k_min_props k) (k_required k) (k_ext_docs k) (k_example k) (k_nullable k) (k_x_preserve k) (k_x_embedded k) (k_x_int_or_string k) (k_x_list_map_keys k) (k_x_list_type k) (k_x_map_type k) (k_x_validations k).
(** pkg/crd/markers/validation.go:445 *)
Definition set_k_max_items (k : kw) (v : option Z) : kw :=
  mkKw (k_id k) (k_schema_uri k) (k_ref k) (k_desc k) (k_type k) (k_format k) (k_title k) (k_default k) (k_maximum k) (k_excl_max k) (k_minimum k) (k_excl_min k) (k_max_length k) (k_min_length k) (k_pattern k) v (k_min_items k) (k_unique_items k) (k_multiple_of k) (k_enum k) (k_max_props k) (k_min_props k) (k_required k) (k_ext_docs k) (k_example k) (k_nullable k) (k_x_preserve k) (k_x_embedded k) (k_x_int_or_string k) (k_x_list_map_keys k) (k_x_list_type k) (k_x_map_type k) (k_x_validations k).
(** pkg/crd/markers/validation.go:454 *)
Definition set_k_min_items (k : kw) (v : option Z) : kw :=
  mkKw (k_id k) (k_schema_uri k) (k_ref k) (k_desc k) (k_type k) (k_format k) (k_title k) (k_default k) (k_maximum k) (k_excl_max k) (k_minimum k) (k_excl_min k) (k_max_length k) (k_min_length k) (k_pattern k) (k_max_items k) v (k_unique_items k) (k_multiple_of k) (k_enum k) (k_max_props k) (k_min_props k) (k_required k) (k_ext_docs k) (k_example k) (k_nullable k) (k_x_preserve k) (k_x_embedded k) (k_x_int_or_string k) (k_x_list_map_keys k) (k_x_list_type k) (k_x_map_type k) (k_x_validations k).
(** pkg/crd/markers/validation.go:462 *)
Definition set_k_unique_items (k : kw) (v : bool) : kw :=
  mkKw (k_id k) (k_schema_uri k) (k_ref k) (k_desc k) (k_type k) (k_format k) (k_title k) (k_default k) (k_maximum k) (k_excl_max k) (k_minimum k) (k_excl_min k) (k_max_length k) (k_min_length k) (k_pattern k) (k_max_items k) (k_min_items k) v (k_multiple_of k) (k_enum k) (k_max_props k) (k_min_props k) (k_required k) (k_ext_docs k) (k_example k) (k_nullable k) (k_x_preserve k) (k_x_embedded k) (k_x_int_or_string k) (k_x_list_map_keys k) (k_x_list_type k) (k_x_map_type k) (k_x_validations k).
(** pkg/crd/markers/validation.go:410 *)
Definition set_k_multiple_of (k : kw) (v : option Q) : kw :=
  mkKw (k_id k) (k_schema_uri k) (k_ref k) (k_desc k) (k_type k) (k_format k) (k_title k) (k_default k) (k_maximum k) (k_excl_max k) (k_minimum k) (k_excl_min k) (k_max_length k) (k_min_length k) (k_pattern k) (k_max_items k) (k_min_items k) (k_unique_items k) v (k_enum k) (k_max_props k) (k_min_props k) (k_required k) (k_ext_docs k) (k_example k) (k_nullable k) (k_x_preserve k) (k_x_embedded k) (k_x_int_or_string k) (k_x_list_map_keys k) (k_x_list_type k) (k_x_map_type k) (k_x_validations k).
(** pkg/crd/markers/validation.go:498 *)
Definition set_k_enum (k : kw) (v : list json) : kw :=
  mkKw (k_id k) (k_schema_uri k) (k_ref k) (k_desc k) (k_type k) (k_format k) (k_title k) (k_default k) (k_maximum k) (k_excl_max k) (k_minimum k) (k_excl_min k) (k_max_length k) (k_min_length k) (k_pattern k) (k_max_items k) (k_min_items k) (k_unique_items k) (k_multiple_of k) v (k_max_props k) (k_min_props k) (k_required k) (k_ext_docs k) (k_example k) (k_nullable k) (k_x_preserve k) (k_x_embedded k) (k_x_int_or_string k) (k_x_list_map_keys k) (k_x_list_type k) (k_x_map_type k) (k_x_validations k).
(** pkg/crd/markers/validation.go:480 *)
Definition set_k_max_props (k : kw) (v : option Z) : kw :=
  mkKw (k_id k) (k_schema_uri k) (k_ref k) (k_desc k) (k_type k) (k_format k) (k_title k) (k_default k) (k_maximum k) (k_excl_max k) (k_minimum k) (k_excl_min k) (k_max_length k) (k_min_length k) (k_pattern k) (k_max_items k) (k_min_items k) (k_unique_items k) (k_multiple_of k) (k_enum k) v (k_min_props k) (k_required k) (k_ext_docs k) (k_example k) (k_nullable k) (k_x_preserve k) (k_x_embedded k) (k_x_int_or_string k) (k_x_list_map_keys k) (k_x_list_type k) (k_x_map_type k) (k_x_validations k).
(** pkg/crd/markers/validation.go:471 *)
Definition set_k_min_props (k : kw) (v : option Z) : kw :=
  mkKw (k_id k) (k_schema_uri k) (k_ref k) (k_desc k) (k_type k) (k_format k) (k_title k) (k_default k) (k_maximum k) (k_excl_max k) (k_minimum k) (k_excl_min k) (k_max_length k) (k_min_length k) (k_pattern k) (k_max_items k) (k_min_items k) (k_unique_items k) (k_multiple_of k) (k_enum k) (k_max_props k) v (k_required k) (k_ext_docs k) (k_example k) (k_nullable k) (k_x_preserve k) (k_x_embedded k) (k_x_int_or_string k) (k_x_list_map_keys k) (k_x_list_type k) (k_x_map_type k) (k_x_validations k).
(** pkg/crd/flatten.go:174, schema.go:453 *)
Definition set_k_required (k : kw) (v : list string) : kw :=
  mkKw (k_id k) (k_schema_uri k) (k_ref k) (k_desc k) (k_type k) (k_format k) (k_title k) (k_default k) (k_maximum k) (k_excl_max k) (k_minimum k) (k_excl_min k) (k_max_length k) (k_min_length k) (k_pattern k) (k_max_items k) (k_min_items k) (k_unique_items k) (k_multiple_of k) (k_enum k) (k_max_props k) (k_min_props k) v (k_ext_docs k) (k_example k) (k_nullable k) (k_x_preserve k) (k_x_embedded k) (k_x_int_or_string k) (k_x_list_map_keys k) (k_x_list_type k) (k_x_map_type k) (k_x_validations k).
(** pkg/crd/flatten.go:361 *)
Definition set_k_ext_docs (k : kw) (v : option (string * string)) : kw :=
  mkKw (k_id k) (k_schema_uri k) (k_ref k) (k_desc k) (k_type k) (k_format k) (k_title k) (k_default k) (k_maximum k) (k_excl_max k) (k_minimum k) (k_excl_min k) (k_max_length k) (k_min_length k) (k_pattern k) (k_max_items k) (k_min_items k) (k_unique_items k) (k_multiple_of k) (k_enum k) (k_max_props k) (k_min_props k) (k_required k) v (k_example k) (k_nullable k) (k_x_preserve k) (k_x_embedded k) (k_x_int_or_string k) (k_x_list_map_keys k) (k_x_list_type k) (k_x_map_type k) (k_x_validations k).
(** pkg/crd/flatten.go:341, markers/validation.go:590 *)
Definition set_k_example (k : kw) (v : option json) : kw :=
  mkKw (k_id k) (k_schema_uri k) (k_ref k) (k_desc k) (k_type k) (k_format k) (k_title k) (k_default k) (k_maximum k) (k_excl_max k) (k_minimum k) (k_excl_min k) (k_max_length k) (k_min_length k) (k_pattern k) (k_max_items k) (k_min_items k) (k_unique_items k) (k_multiple_of k) (k_enum k) (k_max_props k) (k_min_props k) (k_required k) (k_ext_docs k) v (k_nullable k) (k_x_preserve k) (k_x_embedded k) (k_x_int_or_string k) (k_x_list_map_keys k) (k_x_list_type k) (k_x_map_type k) (k_x_validations k).
(** pkg/crd/markers/validation.go:522 *)
Definition set_k_nullable (k : kw) (v : bool) : kw :=
  mkKw (k_id k) (k_schema_uri k) (k_ref k) (k_desc k) (k_type k) (k_format k) (k_title k) (k_default k) (k_maximum k) (k_excl_max k) (k_minimum k) (k_excl_min k) (k_max_length k) (k_min_length k) (k_pattern k) (k_max_items k) (k_min_items k) (k_unique_items k) (k_multiple_of k) (k_enum k) (k_max_props k) (k_min_props k) (k_required k) (k_ext_docs k) (k_example k) v (k_x_preserve k) (k_x_embedded k) (k_x_int_or_string k) (k_x_list_map_keys k) (k_x_list_type k) (k_x_map_type k) (k_x_validations k).
(** pkg/crd/markers/validation.go:596 *)
Definition set_k_x_preserve (k : kw) (v : option bool) : kw :=
  mkKw (k_id k) (k_schema_uri k) (k_ref k) (k_desc k) (k_type k) (k_format k) (k_title k) (k_default k) (k_maximum k) (k_excl_max k) (k_minimum k) (k_excl_min k) (k_max_length k) (k_min_length k) (k_pattern k) (k_max_items k) (k_min_items k) (k_unique_items k) (k_multiple_of k) (k_enum k) (k_max_props k) (k_min_props k) (k_required k) (k_ext_docs k) (k_example k) (k_nullable k) v (k_x_embedded k) (k_x_int_or_string k) (k_x_list_map_keys k) (k_x_list_type k) (k_x_map_type k) (k_x_validations k).
(** pkg/crd/markers/validation.go:601 *)
Definition set_k_x_embedded (k : kw) (v : bool) : kw :=
  mkKw (k_id k) (k_schema_uri k) (k_ref k) (k_desc k) (k_type k) (k_format k) (k_title k) (k_default k) (k_maximum k) (k_excl_max k) (k_minimum k) (k_excl_min k) (k_max_length k) (k_min_length k) (k_pattern k) (k_max_items k) (k_min_items k) (k_unique_items k) (k_multiple_of k) (k_enum k) (k_max_props k) (k_min_props k) (k_required k) (k_ext_docs k) (k_example k) (k_nullable k) (k_x_preserve k) v (k_x_int_or_string k) (k_x_list_map_keys k) (k_x_list_type k) (k_x_map_type k) (k_x_validations k).
(** pkg/crd/markers/validation.go:609 *)
Definition set_k_x_int_or_string (k : kw) (v : bool) : kw :=
  mkKw (k_id k) (k_schema_uri k) (k_ref k) (k_desc k) (k_type k) (k_format k) (k_title k) (k_default k) (k_maximum k) (k_excl_max k) (k_minimum k) (k_excl_min k) (k_max_length k) (k_min_length k) (k_pattern k) (k_max_items k) (k_min_items k) (k_unique_items k) (k_multiple_of k) (k_enum k) (k_max_props k) (k_min_props k) (k_required k) (k_ext_docs k) (k_example k) (k_nullable k) (k_x_preserve k) (k_x_embedded k) v (k_x_list_map_keys k) (k_x_list_type k) (k_x_map_type k) (k_x_validations k).
(** pkg/crd/markers/topology.go:143 *)
Definition set_k_x_list_map_keys (k : kw) (v : list string) : kw :=
  mkKw (k_id k) (k_schema_uri k) (k_ref k) (k_desc k) (k_type k) (k_format k) (k_title k) (k_default k) (k_maximum k) (k_excl_max k) (k_minimum k) (k_excl_min k) (k_max_length k) (k_min_length k) (k_pattern k) (k_max_items k) (k_min_items k) (k_unique_items k) (k_multiple_of k) (k_enum k) (k_max_props k) (k_min_props k) (k_required k) (k_ext_docs k) (k_example k) (k_nullable k) (k_x_preserve k) (k_x_embedded k) (k_x_int_or_string k) v (k_x_list_type k) (k_x_map_type k) (k_x_validations k).
(** pkg/crd/markers/topology.go:128 *)
Definition set_k_x_list_type (k : kw) (v : option string) : kw :=
  mkKw (k_id k) (k_schema_uri k) (k_ref k) (k_desc k) (k_type k) (k_format k) (k_title k) (k_default k) (k_maximum k) (k_excl_max k) (k_minimum k) (k_excl_min k) (k_max_length k) (k_min_length k) (k_pattern k) (k_max_items k) (k_min_items k) (k_unique_items k) (k_multiple_of k) (k_enum k) (k_max_props k) (k_min_props k) (k_required k) (k_ext_docs k) (k_example k) (k_nullable k) (k_x_preserve k) (k_x_embedded k) (k_x_int_or_string k) (k_x_list_map_keys k) v (k_x_map_type k) (k_x_validations k).
(** pkg/crd/markers/topology.go:157 *)
Definition set_k_x_map_type (k : kw) (v : option string) : kw :=
  mkKw (k_id k) (k_schema_uri k) (k_ref k) (k_desc k) (k_type k) (k_format k) (k_title k) (k_default k) (k_maximum k) (k_excl_max k) (k_minimum k) (k_excl_min k) (k_max_length k) (k_min_length k) (k_pattern k) (k_max_items k) (k_min_items k) (k_unique_items k) (k_multiple_of k) (k_enum k) (k_max_props k) (k_min_props k) (k_required k) (k_ext_docs k) (k_example k) (k_nullable k) (k_x_preserve k) (k_x_embedded k) (k_x_int_or_string k) (k_x_list_map_keys k) (k_x_list_type k) v (k_x_validations k).
(** pkg/crd/markers/validation.go:628 *)
Definition set_k_x_validations (k : kw) (v : list vrule) : kw :=
  mkKw (k_id k) (k_schema_uri k) (k_ref k) (k_desc k) (k_type k) (k_format k) (k_title k) (k_default k) (k_maximum k) (k_excl_max k) (k_minimum k) (k_excl_min k) (k_max_length k) (k_min_length k) (k_pattern k) (k_max_items k) (k_min_items k) (k_unique_items k) (k_multiple_of k) (k_enum k) (k_max_props k) (k_min_props k) (k_required k) (k_ext_docs k) (k_example k) (k_nullable k) (k_x_preserve k) (k_x_embedded k) (k_x_int_or_string k) (k_x_list_map_keys k) (k_x_list_type k) (k_x_map_type k) v.
(** Assignment to fields of a schema, as at pkg/crd/flatten.go:335-366 *)
Definition with_kw (s : schema) (k : kw) : schema :=
  Sch k (s_items s) (s_allOf s) (s_oneOf s) (s_anyOf s) (s_not s) (s_props s) (s_addl s) (s_patprops s) (s_deps s) (s_addl_items s) (s_defs s).
(** pkg/crd/schema.go:346 *)
Definition set_items (s : schema) (v : option (option schema * list schema)) : schema :=
  Sch (s_kw s) v (s_allOf s) (s_oneOf s) (s_anyOf s) (s_not s) (s_props s) (s_addl s) (s_patprops s) (s_deps s) (s_addl_items s) (s_defs s).
(** pkg/crd/flatten.go:165, schema.go:483 *)
Definition set_allOf (s : schema) (v : list schema) : schema :=
  Sch (s_kw s) (s_items s) v (s_oneOf s) (s_anyOf s) (s_not s) (s_props s) (s_addl s) (s_patprops s) (s_deps s) (s_addl_items s) (s_defs s).
(** pkg/crd/schema_visitor.go:88 (in place) *)
Definition set_oneOf (s : schema) (v : list schema) : schema :=
  Sch (s_kw s) (s_items s) (s_allOf s) v (s_anyOf s) (s_not s) (s_props s) (s_addl s) (s_patprops s) (s_deps s) (s_addl_items s) (s_defs s).
(** pkg/crd/schema_visitor.go:89 (in place), known_types.go:56 *)
Definition set_anyOf (s : schema) (v : list schema) : schema :=
  Sch (s_kw s) (s_items s) (s_allOf s) (s_oneOf s) v (s_not s) (s_props s) (s_addl s) (s_patprops s) (s_deps s) (s_addl_items s) (s_defs s).
(** pkg/crd/schema_visitor.go:90 (in place) *)
Definition set_not (s : schema) (v : option schema) : schema :=
  Sch (s_kw s) (s_items s) (s_allOf s) (s_oneOf s) (s_anyOf s) v (s_props s) (s_addl s) (s_patprops s) (s_deps s) (s_addl_items s) (s_defs s).
(** pkg/crd/schema.go:487 *)
Definition set_props (s : schema) (v : list (string * schema)) : schema :=
  Sch (s_kw s) (s_items s) (s_allOf s) (s_oneOf s) (s_anyOf s) (s_not s) v (s_addl s) (s_patprops s) (s_deps s) (s_addl_items s) (s_defs s).
(** pkg/crd/schema.go:389-395 *)
Definition set_addl (s : schema) (v : option (bool * option schema)) : schema :=
  Sch (s_kw s) (s_items s) (s_allOf s) (s_oneOf s) (s_anyOf s) (s_not s) (s_props s) v (s_patprops s) (s_deps s) (s_addl_items s) (s_defs s).
(** pkg/crd/schema_visitor.go:95 (in place) *)
Definition set_patprops (s : schema) (v : list (string * schema)) : schema :=
  Sch (s_kw s) (s_items s) (s_allOf s) (s_oneOf s) (s_anyOf s) (s_not s) (s_props s) (s_addl s) v (s_deps s) (s_addl_items s) (s_defs s).
(** pkg/crd/schema_visitor.go:98 *)
Definition set_deps (s : schema) (v : list (string * (option schema * list string))) : schema :=
  Sch (s_kw s) (s_items s) (s_allOf s) (s_oneOf s) (s_anyOf s) (s_not s) (s_props s) (s_addl s) (s_patprops s) v (s_addl_items s) (s_defs s).
(** pkg/crd/schema_visitor.go:100-102 (in place) *)
Definition set_addl_items (s : schema) (v : option (bool * option schema)) : schema :=
  Sch (s_kw s) (s_items s) (s_allOf s) (s_oneOf s) (s_anyOf s) (s_not s) (s_props s) (s_addl s) (s_patprops s) (s_deps s) v (s_defs s).
(** pkg/crd/schema_visitor.go:103 (in place) *)
Definition set_defs (s : schema) (v : list (string * schema)) : schema :=
  Sch (s_kw s) (s_items s) (s_allOf s) (s_oneOf s) (s_anyOf s) (s_not s) (s_props s) (s_addl s) (s_patprops s) (s_deps s) (s_addl_items s) v.
(** pkg/crd/flatten.go:70-162 (through reflection only) *)
Definition set_id (s : schema) (v : string) : schema := with_kw s (set_k_id (s_kw s) v).
(** pkg/crd/flatten.go:70-162 (through reflection only) *)
Definition set_schema_uri (s : schema) (v : string) : schema := with_kw s (set_k_schema_uri (s_kw s) v).
(** pkg/crd/flatten.go:343, schema.go:288 *)
Definition set_ref (s : schema) (v : option string) : schema := with_kw s (set_k_ref (s_kw s) v).
(** pkg/crd/desc_visitor.go:48, flatten.go:355 *)
Definition set_desc (s : schema) (v : string) : schema := with_kw s (set_k_desc (s_kw s) v).
(** pkg/crd/markers/validation.go:513, schema.go:402 *)
Definition set_type (s : schema) (v : string) : schema := with_kw s (set_k_type (s_kw s) v).
(** pkg/crd/markers/validation.go:503 *)
Definition set_format (s : schema) (v : string) : schema := with_kw s (set_k_format (s_kw s) v).
(** pkg/crd/flatten.go:358, markers/validation.go:553 *)
Definition set_title (s : schema) (v : string) : schema := with_kw s (set_k_title (s_kw s) v).
(** pkg/crd/markers/validation.go:535 and :576 *)
Definition set_default (s : schema) (v : option json) : schema := with_kw s (set_k_default (s_kw s) v).
(** pkg/crd/markers/validation.go:365 *)
Definition set_maximum (s : schema) (v : option Q) : schema := with_kw s (set_k_maximum (s_kw s) v).
(** pkg/crd/markers/validation.go:387 *)
Definition set_excl_max (s : schema) (v : bool) : schema := with_kw s (set_k_excl_max (s_kw s) v).
(** pkg/crd/markers/validation.go:379 *)
Definition set_minimum (s : schema) (v : option Q) : schema := with_kw s (set_k_minimum (s_kw s) v).
(** pkg/crd/markers/validation.go:396 *)
Definition set_excl_min (s : schema) (v : bool) : schema := with_kw s (set_k_excl_min (s_kw s) v).
(** pkg/crd/markers/validation.go:419 *)
Definition set_max_length (s : schema) (v : option Z) : schema := with_kw s (set_k_max_length (s_kw s) v).
(** pkg/crd/markers/validation.go:428 *)
Definition set_min_length (s : schema) (v : option Z) : schema := with_kw s (set_k_min_length (s_kw s) v).
(** pkg/crd/markers/validation.go:436 *)
Definition set_pattern (s : schema) (v : string) : schema := with_kw s (set_k_pattern (s_kw s) v).
(** pkg/crd/markers/validation.go:445 *)
Definition set_max_items (s : schema) (v : option Z) : schema := with_kw s (set_k_max_items (s_kw s) v).
(** pkg/crd/markers/validation.go:454 *)
Definition set_min_items (s : schema) (v : option Z) : schema := with_kw s (set_k_min_items (s_kw s) v).
(** pkg/crd/markers/validation.go:462 *)
Definition set_unique_items (s : schema) (v : bool) : schema := with_kw s (set_k_unique_items (s_kw s) v).
(** pkg/crd/markers/validation.go:410 *)
Definition set_multiple_of (s : schema) (v : option Q) : schema := with_kw s (set_k_multiple_of (s_kw s) v).
(** pkg/crd/markers/validation.go:498 *)
Definition set_enum (s : schema) (v : list json) : schema := with_kw s (set_k_enum (s_kw s) v).
(** pkg/crd/markers/validation.go:480 *)
Definition set_max_props (s : schema) (v : option Z) : schema := with_kw s (set_k_max_props (s_kw s) v).
(** pkg/crd/markers/validation.go:471 *)
Definition set_min_props (s : schema) (v : option Z) : schema := with_kw s (set_k_min_props (s_kw s) v).
(** pkg/crd/flatten.go:174, schema.go:453 *)
Definition set_required (s : schema) (v : list string) : schema := with_kw s (set_k_required (s_kw s) v).
(** pkg/crd/flatten.go:361 *)
Definition set_ext_docs (s : schema) (v : option (string * string)) : schema := with_kw s (set_k_ext_docs (s_kw s) v).
(** pkg/crd/flatten.go:341, markers/validation.go:590 *)
Definition set_example (s : schema) (v : option json) : schema := with_kw s (set_k_example (s_kw s) v).
(** pkg/crd/markers/validation.go:522 *)
Definition set_nullable (s : schema) (v : bool) : schema := with_kw s (set_k_nullable (s_kw s) v).
(** pkg/crd/markers/validation.go:596 *)
Definition set_x_preserve (s : schema) (v : option bool) : schema := with_kw s (set_k_x_preserve (s_kw s) v).
(** pkg/crd/markers/validation.go:601 *)
Definition set_x_embedded (s : schema) (v : bool) : schema := with_kw s (set_k_x_embedded (s_kw s) v).
(** pkg/crd/markers/validation.go:609 *)
Definition set_x_int_or_string (s : schema) (v : bool) : schema := with_kw s (set_k_x_int_or_string (s_kw s) v).
(** pkg/crd/markers/topology.go:143 *)
Definition set_x_list_map_keys (s : schema) (v : list string) : schema := with_kw s (set_k_x_list_map_keys (s_kw s) v).
(** pkg/crd/markers/topology.go:128 *)
Definition set_x_list_type (s : schema) (v : option string) : schema := with_kw s (set_k_x_list_type (s_kw s) v).
(** pkg/crd/markers/topology.go:157 *)
Definition set_x_map_type (s : schema) (v : option string) : schema := with_kw s (set_k_x_map_type (s_kw s) v).
(** pkg/crd/markers/validation.go:628 *)
Definition set_x_validations (s : schema) (v : list vrule) : schema := with_kw s (set_k_x_validations (s_kw s) v).

(** Direct children, in the order pkg/crd/schema_visitor.go:81-103 walks them (maps in list order). *)
Definition opt_list {A : Type} (o : option A) : list A := match o with Some x => [x] | None => [] end.
(** pkg/crd/schema_visitor.go:83-86; :92-94 and :100-102 *)
Definition items_list (i : option (option schema * list schema)) : list schema :=
  match i with Some (o, l) => opt_list o ++ l | None => [] end.
(** pkg/crd/schema_visitor.go:83-86; :92-94 and :100-102 *)
Definition orbool_list (a : option (bool * option schema)) : list schema :=
  match a with Some (_, o) => opt_list o | None => [] end.
(** pkg/crd/schema_visitor.go:81-103 *)
Definition children (s : schema) : list schema :=
  items_list (s_items s) ++ s_allOf s ++ s_oneOf s ++ s_anyOf s ++ opt_list (s_not s) ++
  map snd (s_props s) ++ orbool_list (s_addl s) ++ map snd (s_patprops s) ++
  flat_map (fun d => opt_list (fst (snd d))) (s_deps s) ++ orbool_list (s_addl_items s) ++ map snd (s_defs s).
