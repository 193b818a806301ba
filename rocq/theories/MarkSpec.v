(** * What schema markers are for. *)
From Coq Require Import List String ZArith QArith Bool Permutation Sorting.Sorted.
From Verif Require Import GoLib SchemaModel ValidSpec MarkModel.
Import ListNotations.
Open Scope string_scope.
Open Scope list_scope.

(** The keyword a marker sets *)
Inductive keyword := KMaximum | KMinimum | KExclMax | KExclMin | KMultipleOf | KMinProps | KMaxProps | KMaxLength | KMinLength | KPattern | KMaxItems | KMinItems | KUniqueItems
  | KEnum | KFormat | KType | KPreserve | KEmbedded | KIntOrString | KValidations | KNullable | KDefault | KTitle | KExample | KListType | KListMapKeys | KMapType.
Definition keyword_of (m : smarker) : keyword :=
  match m with
  | MMaximum _ => KMaximum | MMinimum _ => KMinimum | MExclMax _ => KExclMax | MExclMin _ => KExclMin | MMultipleOf _ => KMultipleOf
  | MMinProps _ => KMinProps | MMaxProps _ => KMaxProps | MMaxLength _ => KMaxLength | MMinLength _ => KMinLength | MPattern _ => KPattern
  | MMaxItems _ => KMaxItems | MMinItems _ => KMinItems | MUniqueItems _ => KUniqueItems | MEnum _ => KEnum | MFormat _ => KFormat | MType _ => KType
  | MPreserve => KPreserve | MEmbedded => KEmbedded | MIntOrString => KIntOrString | MXValidation _ => KValidations | MNullable => KNullable
  | MDefault _ | MKubeDefault _ => KDefault | MTitle _ => KTitle | MExample _ => KExample
  | MListType _ => KListType | MListMapKey _ => KListMapKeys | MMapType _ | MStructType _ => KMapType
  end.
Definition keywords : list keyword := [KMaximum; KMinimum; KExclMax; KExclMin; KMultipleOf; KMinProps; KMaxProps; KMaxLength; KMinLength; KPattern; KMaxItems; KMinItems; KUniqueItems;
  KEnum; KFormat; KType; KPreserve; KEmbedded; KIntOrString; KValidations; KNullable; KDefault; KTitle; KExample; KListType; KListMapKeys; KMapType].
(** Two schemas agree on a keyword *)
Definition agree (k : keyword) (a b : kw) : Prop :=
  match k with
  | KMaximum => k_maximum a = k_maximum b | KMinimum => k_minimum a = k_minimum b | KExclMax => k_excl_max a = k_excl_max b | KExclMin => k_excl_min a = k_excl_min b
  | KMultipleOf => k_multiple_of a = k_multiple_of b | KMinProps => k_min_props a = k_min_props b | KMaxProps => k_max_props a = k_max_props b
  | KMaxLength => k_max_length a = k_max_length b | KMinLength => k_min_length a = k_min_length b | KPattern => k_pattern a = k_pattern b
  | KMaxItems => k_max_items a = k_max_items b | KMinItems => k_min_items a = k_min_items b | KUniqueItems => k_unique_items a = k_unique_items b
  | KEnum => k_enum a = k_enum b | KFormat => k_format a = k_format b | KType => k_type a = k_type b | KPreserve => k_x_preserve a = k_x_preserve b
  | KEmbedded => k_x_embedded a = k_x_embedded b | KIntOrString => k_x_int_or_string a = k_x_int_or_string b | KValidations => k_x_validations a = k_x_validations b
  | KNullable => k_nullable a = k_nullable b | KDefault => k_default a = k_default b | KTitle => k_title a = k_title b | KExample => k_example a = k_example b
  | KListType => k_x_list_type a = k_x_list_type b | KListMapKeys => k_x_list_map_keys a = k_x_list_map_keys b | KMapType => k_x_map_type a = k_x_map_type b
  end.
(** Nothing else changed: all other keywords, the subschemas, and what no marker sets *)
Definition unchanged_but (ks : list keyword) (s s' : schema) : Prop :=
  (forall k, ~ In k ks -> agree k (s_kw s) (s_kw s')) /\
  k_id (s_kw s) = k_id (s_kw s') /\ k_schema_uri (s_kw s) = k_schema_uri (s_kw s') /\ k_ref (s_kw s) = k_ref (s_kw s') /\ k_desc (s_kw s) = k_desc (s_kw s') /\
  k_required (s_kw s) = k_required (s_kw s') /\ k_ext_docs (s_kw s) = k_ext_docs (s_kw s') /\
  s_items s = s_items s' /\ s_allOf s = s_allOf s' /\ s_oneOf s = s_oneOf s' /\ s_anyOf s = s_anyOf s' /\ s_not s = s_not s' /\ s_props s = s_props s' /\
  s_addl s = s_addl s' /\ s_patprops s = s_patprops s' /\ s_deps s = s_deps s' /\ s_addl_items s = s_addl_items s' /\ s_defs s = s_defs s'.

(** The schemas a marker may be used on *)
Definition typed_as (l : list string) (s : schema) : Prop := In (k_type (s_kw s)) l.
Definition whole (q : Q) : Prop := exists z : Z, (q == inject_Z z)%Q.
Definition usable (m : smarker) (s : schema) : Prop :=
  match m with
  | MMaximum q | MMinimum q | MMultipleOf q => typed_as ["number"] s \/ (typed_as ["integer"] s /\ whole q)
  | MExclMax _ | MExclMin _ => typed_as ["integer"; "number"] s
  | MMaxLength _ | MMinLength _ | MPattern _ => typed_as ["string"] s \/ k_x_int_or_string (s_kw s) = true
  | MMaxItems _ | MMinItems _ | MUniqueItems _ => typed_as ["array"] s
  | MMinProps _ | MMaxProps _ => typed_as ["object"] s
  | MXValidation r => In (vr_reason r) [""; "FieldValueRequired"; "FieldValueInvalid"; "FieldValueForbidden"; "FieldValueDuplicate"]
  | MListType t => typed_as ["array"] s /\ In t ["map"; "set"; "atomic"]
  | MListMapKey _ => typed_as ["array"] s /\ k_x_list_type (s_kw s) = Some "map"
  | MMapType t => typed_as ["object"] s /\ In t ["granular"; "atomic"]
  | MStructType t => typed_as ["object"; ""] s /\ In t ["granular"; "atomic"]
  | MTitle v => v = JNull \/ exists t, v = JStr t
  | _ => True
  end.
(** The schema says what the marker says *)
Definition carries (m : smarker) (k : kw) : Prop :=
  match m with
  | MMaximum q => k_maximum k = Some q | MMinimum q => k_minimum k = Some q | MExclMax b => k_excl_max k = b | MExclMin b => k_excl_min k = b | MMultipleOf q => k_multiple_of k = Some q
  | MMinProps z => k_min_props k = Some z | MMaxProps z => k_max_props k = Some z | MMaxLength z => k_max_length k = Some z | MMinLength z => k_min_length k = Some z | MPattern p => k_pattern k = p
  | MMaxItems z => k_max_items k = Some z | MMinItems z => k_min_items k = Some z | MUniqueItems b => k_unique_items k = b
  | MEnum l => k_enum k = l | MFormat f => k_format k = f | MType t => k_type k = t | MPreserve => k_x_preserve k = Some true | MEmbedded => k_x_embedded k = true
  | MIntOrString => k_x_int_or_string k = true | MXValidation r => In r (k_x_validations k) | MNullable => k_nullable k = true
  | MDefault v => k_default k = Some v \/ (k_default k = Some (JArr []) /\ v = JObj [] /\ k_type k = "array")
  | MKubeDefault v => v = JNull \/ k_default k = Some v | MTitle v => v = JNull \/ exists t, v = JStr t /\ k_title k = t | MExample v => k_example k = Some v
  | MListType t => k_x_list_type k = Some t | MListMapKey x => In x (k_x_list_map_keys k) | MMapType t | MStructType t => k_x_map_type k = Some t
  end.

(** ** Meaning: the values a marker admits, where the schema says nothing yet about its keyword *)
Definition silent (m : smarker) (k : kw) : Prop :=
  match m with
  | MMaximum _ => k_maximum k = None | MMinimum _ => k_minimum k = None | MMultipleOf _ => k_multiple_of k = None
  | MMinProps _ => k_min_props k = None | MMaxProps _ => k_max_props k = None | MMaxLength _ => k_max_length k = None | MMinLength _ => k_min_length k = None | MPattern _ => k_pattern k = ""
  | MMaxItems _ => k_max_items k = None | MMinItems _ => k_min_items k = None | MUniqueItems _ => k_unique_items k = false | MEnum _ => k_enum k = [] | MFormat _ => k_format k = ""
  | MExclMax _ => k_excl_max k = false | MExclMin _ => k_excl_min k = false | MType _ => k_type k = "" | MEmbedded => k_x_embedded k = false | MIntOrString => k_x_int_or_string k = false
  | _ => True
  end.
Section Meaning.
  Variable O : oracles.
  Definition admits (m : smarker) (k : kw) (v : json) : Prop :=
    match m with
    | MMaximum q => forall n, v = JNum n -> if k_excl_max k then (n < q)%Q else (n <= q)%Q
    | MMinimum q => forall n, v = JNum n -> if k_excl_min k then (q < n)%Q else (q <= n)%Q
    | MExclMax b => forall n q, v = JNum n -> k_maximum k = Some q -> b = true -> (n < q)%Q
    | MExclMin b => forall n q, v = JNum n -> k_minimum k = Some q -> b = true -> (q < n)%Q
    | MMultipleOf q => forall n, v = JNum n -> o_multiple O n q = true
    | MMaxProps z => forall l, v = JObj l -> (Z.of_nat (List.length l) <= z)%Z
    | MMinProps z => forall l, v = JObj l -> (z <= Z.of_nat (List.length l))%Z
    | MMaxLength z => forall s, v = JStr s -> (o_strlen O s <= z)%Z
    | MMinLength z => forall s, v = JStr s -> (z <= o_strlen O s)%Z
    | MPattern p => forall s, v = JStr s -> p = "" \/ o_pattern O p s = true
    | MMaxItems z => forall l, v = JArr l -> (Z.of_nat (List.length l) <= z)%Z
    | MMinItems z => forall l, v = JArr l -> (z <= Z.of_nat (List.length l))%Z
    | MUniqueItems b => b = true -> forall l x y z a c, v = JArr l -> l = x ++ a :: y ++ c :: z -> o_jeq O a c = false
    | MEnum l => l = [] \/ exists x, In x l /\ o_jeq O v x = true
    | MFormat f => f = "" \/ o_format O f v = true
    | MType t => t = "" \/ match v with
                 | JNull => k_nullable k = true | JBool _ => t = "boolean" | JNum n => t = "number" \/ (t = "integer" /\ whole n)
                 | JStr _ => t = "string" | JArr _ => t = "array" | JObj _ => t = "object" end
    | MEmbedded => o_embedded O v = true
    | MIntOrString => match v with JNum n => whole n | JStr _ | JNull => True | _ => False end
    | MXValidation r => o_cel O r v = true
    | MPreserve | MNullable | MDefault _ | MKubeDefault _ | MTitle _ | MExample _ | MListType _ | MListMapKey _ | MMapType _ | MStructType _ => True
    end.
End Meaning.

(** ** Orders *)
(** The results sort.Slice may give *)
Definition sorts (f : list (string * smarker) -> list (string * smarker)) : Prop :=
  forall l, Permutation (f l) l /\ StronglySorted (fun a b => (priority (snd a) <= priority (snd b))%nat) (f l).
(** Markers whose order matters: the same keyword set at the same priority, or type and list type *)
Definition additive (m m' : smarker) : Prop := match m, m' with MXValidation _, MXValidation _ | MListMapKey _, MListMapKey _ => True | _, _ => False end.
Definition independent (m m' : smarker) : Prop :=
  priority m <> priority m' \/ m = m' \/ additive m m' \/
  (keyword_of m <> keyword_of m' /\ ~ (keyword_of m = KType /\ keyword_of m' = KListType) /\ ~ (keyword_of m = KListType /\ keyword_of m' = KType)).
(** All pairs of markers of the set, for the schema and for its items *)
Definition pairwise {A} (R : A -> A -> Prop) (l : list A) : Prop := forall x y z a b, l = x ++ a :: y ++ b :: z -> R a b.
Definition markers_of (set : marker_values) (onitems : bool) : list smarker :=
  flat_map (fun kv => if Bool.eqb (has_prefix items_prefix (fst kv)) onitems then flat_map (fun v => match v with VSchema m => [m] | VOther => [] end) (snd kv) else []) set.
Definition order_free (set : marker_values) : Prop := forall b, pairwise independent (markers_of set b).
(** ... even without several rules or several keys *)
Definition order_exact (set : marker_values) : Prop := forall b, pairwise (fun m m' => independent m m' /\ (additive m m' -> m = m')) (markers_of set b).
(** No two markers for one keyword, except rules and keys *)
Definition one_each (set : marker_values) : Prop := forall b, pairwise (fun m m' => keyword_of m <> keyword_of m' \/ additive m m') (markers_of set b).
(** The same schema but for the order of validation rules and list map keys, here and in the items *)
Definition similar_kw (a b : kw) : Prop :=
  (forall k, k <> KValidations -> k <> KListMapKeys -> agree k a b) /\ Permutation (k_x_validations a) (k_x_validations b) /\ Permutation (k_x_list_map_keys a) (k_x_list_map_keys b) /\
  k_id a = k_id b /\ k_schema_uri a = k_schema_uri b /\ k_ref a = k_ref b /\ k_desc a = k_desc b /\ k_required a = k_required b /\ k_ext_docs a = k_ext_docs b.
Definition same_but_kw (a b : schema) : Prop :=
  s_allOf a = s_allOf b /\ s_oneOf a = s_oneOf b /\ s_anyOf a = s_anyOf b /\ s_not a = s_not b /\ s_props a = s_props b /\
  s_addl a = s_addl b /\ s_patprops a = s_patprops b /\ s_deps a = s_deps b /\ s_addl_items a = s_addl_items b /\ s_defs a = s_defs b.
Definition similar1 (a b : schema) : Prop := similar_kw (s_kw a) (s_kw b) /\ same_but_kw a b /\ s_items a = s_items b.
Definition similar (a b : schema) : Prop :=
  similar_kw (s_kw a) (s_kw b) /\ same_but_kw a b /\
  match s_items a, s_items b with
  | None, None => True
  | Some (None, l), Some (None, l') => l = l'
  | Some (Some x, l), Some (Some y, l') => similar1 x y /\ l = l'
  | _, _ => False
  end.
