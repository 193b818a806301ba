(** * Model of the markers that change schemas: pkg/crd/markers/validation.go, topology.go, and applyMarkers of pkg/crd/schema.go.
    Definitions only.

    The values of numeric markers are rationals: no marker text gives NaN or an infinity (strconv.ParseFloat reports those
    as range errors, and text/scanner has no such tokens). Values of type interface{} are the JSON values they are marshalled
    to; marshalling parsed values cannot fail. *)

From Coq Require Import List String ZArith QArith Bool.
From Verif Require Import GoLib SchemaModel.
Import ListNotations.
Open Scope string_scope.
Open Scope list_scope.

Inductive smarker :=
| MMaximum (q : Q) | MMinimum (q : Q) | MExclMax (b : bool) | MExclMin (b : bool) | MMultipleOf (q : Q)
| MMinProps (z : Z) | MMaxProps (z : Z) | MMaxLength (z : Z) | MMinLength (z : Z) | MPattern (s : string)
| MMaxItems (z : Z) | MMinItems (z : Z) | MUniqueItems (b : bool)
| MEnum (l : list json) | MFormat (s : string) | MType (s : string)
| MPreserve | MEmbedded | MIntOrString | MXValidation (r : vrule)
| MNullable | MDefault (v : json) | MKubeDefault (v : json) | MTitle (v : json) | MExample (v : json)
| MListType (s : string) | MListMapKey (s : string) | MMapType (s : string) | MStructType (s : string).

(** pkg/crd/markers/validation.go:328-330 *)
Definition has_numeric_type (s : schema) : bool := String.eqb (k_type (s_kw s)) "integer" || String.eqb (k_type (s_kw s)) "number".
(** pkg/crd/markers/validation.go:332-334 *)
Definition has_textual_type (s : schema) : bool := String.eqb (k_type (s_kw s)) "string" || k_x_int_or_string (s_kw s).
(** pkg/crd/markers/validation.go:336-338 *)
Definition is_integral (q : Q) : bool := Z.eqb (Z.modulo (Qnum q) (Zpos (Qden q))) 0.
(** The comparisons of schema.Type, pkg/crd/markers/validation.go:355-637 *)
Definition is_type (s : schema) (t : string) : bool := String.eqb (k_type (s_kw s)) t.

(** ApplyToSchema: the schema afterwards, and whether an error was returned. pkg/crd/markers/validation.go:355-637
    and pkg/crd/markers/topology.go:120-175. *)
Definition apply (m : smarker) (s : schema) : schema * bool :=
  match m with
  (* validation.go:355-367 *)
  | MMaximum q =>
      if negb (has_numeric_type s) then (s, true)
      else if is_type s "integer" && negb (is_integral q) then (s, true)
      else (set_maximum s (Some q), false)
  (* validation.go:369-381 *)
  | MMinimum q =>
      if negb (has_numeric_type s) then (s, true)
      else if is_type s "integer" && negb (is_integral q) then (s, true)
      else (set_minimum s (Some q), false)
  (* validation.go:383-389 *)
  | MExclMax b => if negb (has_numeric_type s) then (s, true) else (set_excl_max s b, false)
  (* validation.go:391-398 *)
  | MExclMin b => if negb (has_numeric_type s) then (s, true) else (set_excl_min s b, false)
  (* validation.go:400-412 *)
  | MMultipleOf q =>
      if negb (has_numeric_type s) then (s, true)
      else if is_type s "integer" && negb (is_integral q) then (s, true)
      else (set_multiple_of s (Some q), false)
  (* validation.go:414-438 *)
  | MMaxLength z => if negb (has_textual_type s) then (s, true) else (set_max_length s (Some z), false)
  | MMinLength z => if negb (has_textual_type s) then (s, true) else (set_min_length s (Some z), false)
  | MPattern p => if negb (has_textual_type s) then (s, true) else (set_pattern s p, false)
  (* validation.go:440-464 *)
  | MMaxItems z => if negb (is_type s "array") then (s, true) else (set_max_items s (Some z), false)
  | MMinItems z => if negb (is_type s "array") then (s, true) else (set_min_items s (Some z), false)
  | MUniqueItems b => if negb (is_type s "array") then (s, true) else (set_unique_items s b, false)
  (* validation.go:466-482 *)
  | MMinProps z => if negb (is_type s "object") then (s, true) else (set_min_props s (Some z), false)
  | MMaxProps z => if negb (is_type s "object") then (s, true) else (set_max_props s (Some z), false)
  (* validation.go:484-505, 512-515, 521-524 *)
  | MEnum l => (set_enum s l, false)
  | MFormat f => (set_format s f, false)
  | MType t => (set_type s t, false)
  | MNullable => (set_nullable s true, false)
  (* validation.go:527-537 *)
  | MDefault v =>
      let v := if is_type s "array" && match v with JObj [] => true | _ => false end then JArr [] else v in
      (set_default s (Some v), false)
  (* validation.go:544-555 *)
  | MTitle v => match v with JNull => (s, false) | JStr t => (set_title s t, false) | _ => (s, true) end
  (* validation.go:567-578 *)
  | MKubeDefault v => match v with JNull => (s, false) | _ => (set_default s (Some v), false) end
  (* validation.go:585-603, 608-611 *)
  | MExample v => (set_example s (Some v), false)
  | MPreserve => (set_x_preserve s (Some true), false)
  | MEmbedded => (set_x_embedded s true, false)
  | MIntOrString => (set_x_int_or_string s true, false)
  (* validation.go:617-638 *)
  | MXValidation r =>
      if negb (String.eqb (vr_reason r) "") && negb (mem_str (vr_reason r) ["FieldValueRequired"; "FieldValueInvalid"; "FieldValueForbidden"; "FieldValueDuplicate"])
      then (s, true)
      else (set_x_validations s (k_x_validations (s_kw s) ++ [r]), false)
  (* topology.go:120-130 *)
  | MListType t =>
      if negb (is_type s "array") then (s, true)
      else if negb (String.eqb t "map") && negb (String.eqb t "atomic") && negb (String.eqb t "set") then (s, true)
      else (set_x_list_type s (Some t), false)
  (* topology.go:136-145 *)
  | MListMapKey key =>
      if negb (is_type s "array") then (s, true)
      else if negb (match k_x_list_type (s_kw s) with Some t => String.eqb t "map" | None => false end) then (s, true)
      else (set_x_list_map_keys s (k_x_list_map_keys (s_kw s) ++ [key]), false)
  (* topology.go:147-160 *)
  | MMapType t =>
      if negb (is_type s "object") then (s, true)
      else if negb (String.eqb t "atomic") && negb (String.eqb t "granular") then (s, true)
      else (set_x_map_type s (Some t), false)
  (* topology.go:162-175 *)
  | MStructType t =>
      if negb (is_type s "object") && negb (is_type s "") then (s, true)
      else if negb (String.eqb t "atomic") && negb (String.eqb t "granular") then (s, true)
      else (set_x_map_type s (Some t), false)
  end.

(** pkg/crd/schema.go:170-190 with pkg/crd/markers/priority.go:23-33, validation.go:517, 539, 580, 613, topology.go:132.
    No marker implements ApplyFirst. *)
Definition priority (m : smarker) : nat :=
  match m with
  | MType _ | MIntOrString | MListType _ => 10 - 1
  | MKubeDefault _ => 9
  | MDefault _ => 10
  | _ => 10
  end.

(** pkg/markers/collect.go:39: values by marker name. [VOther]: a value that is no SchemaMarker *)
Inductive mvalue := VSchema (m : smarker) | VOther.
(** pkg/markers/collect.go:39-40 *)
Definition marker_values := list (string * list mvalue).
(** pkg/markers/collect.go:43-49: is Get non-nil? *)
Definition has_marker (set : marker_values) (name : string) : bool :=
  match mget String.eqb set name with Some (_ :: _) => true | _ => false end.

(** pkg/crd/markers/validation.go:30-33 *)
Definition items_prefix : string := "kubebuilder:validation:items:".

Section Apply.
  (** The order in which the map is visited, and sort.Slice *)
  Variable order : marker_values -> marker_values.
  Variable sorted : list (string * smarker) -> list (string * smarker).

  (** pkg/crd/schema.go:148-166 *)
  Definition schema_markers (set : marker_values) : list (string * smarker) :=
    flat_map (fun kv => flat_map (fun v => match v with VSchema m => [(fst kv, m)] | VOther => [] end) (snd kv)) (order set).
  (** pkg/crd/schema.go:195-199; errors are the names of the markers *)
  Fixpoint apply_all (l : list (string * smarker)) (s : schema) : schema * list string :=
    match l with
    | [] => (s, [])
    | (name, m) :: l' =>
        let '(s1, err) := apply m s in
        let '(s2, errs) := apply_all l' s1 in
        (s2, if err : bool then name :: errs else errs)
    end.
  (** pkg/crd/schema.go:201-211 *)
  Fixpoint apply_items (l : list (string * smarker)) (s : schema) : schema * list string :=
    match l with
    | [] => (s, [])
    | (name, m) :: l' =>
        match s_items s with
        | Some (Some it, more) =>
            if negb (is_type s "array") then let '(s2, errs) := apply_items l' s in (s2, name :: errs)
            else
              let '(it', err) := apply m it in
              let '(s2, errs) := apply_items l' (set_items s (Some (Some it', more))) in
              (s2, if err : bool then name :: errs else errs)
        | _ => let '(s2, errs) := apply_items l' s in (s2, name :: errs)
        end
    end.
  (** pkg/crd/schema.go:146-212 *)
  Definition apply_markers (set : marker_values) (props : schema) : schema * list string :=
    let all := schema_markers set in
    let on_items (x : string * smarker) := has_prefix items_prefix (fst x) in
    let '(s1, e1) := apply_all (sorted (filter (fun x => negb (on_items x)) all)) props in
    let '(s2, e2) := apply_items (sorted (filter on_items all)) s1 in
    (s2, e1 ++ e2).
End Apply.
