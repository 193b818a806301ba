(** * Model of pkg/crd/flatten.go. Definitions only. (Written by tools/gen_flatten.py.) *)

From Coq Require Import List String ZArith QArith Bool.
From Verif Require Import GoLib SchemaModel WalkModel.
Import ListNotations.
Open Scope string_scope.
Open Scope list_scope.

(** ** Merging one field, pkg/crd/flatten.go:74-164

    A field is skipped when src has its zero value (84-87), copied when dst has (91-95), skipped when the values are
    equal and of a comparable type (97-100), and otherwise a conflict. The default conflict resolution (155-163) clears
    dst's field and moves both values into two new schemas. Pointers are compared by address: FlattenEmbedded deep-copies
    the schema first (214), so no two nodes share a pointer and two non-nil pointers always conflict. Slices and maps
    are not comparable.
    keep_ is the value left in dst, drem_ and srem_ the values moved to the two remainders, clash_ the hoisted flag. *)
Definition is_empty {A} (l : list A) : bool := match l with [] => true | _ => false end.
Definition is_none {A} (o : option A) : bool := match o with None => true | _ => false end.

Definition clash_str (d s : string) : bool := negb (String.eqb s "") && negb (String.eqb d "") && negb (String.eqb s d).
Definition keep_str (d s : string) : string := if clash_str d s then "" else if String.eqb d "" then s else d.
Definition drem_str (d s : string) : string := if clash_str d s then d else "".
Definition srem_str (d s : string) : string := if clash_str d s then s else "".

Definition clash_ptr {A} (d s : option A) : bool := negb (is_none s) && negb (is_none d).
Definition keep_ptr {A} (d s : option A) : option A := match d, s with None, _ => s | _, None => d | _, _ => None end.
Definition drem_ptr {A} (d s : option A) : option A := if clash_ptr d s then d else None.
Definition srem_ptr {A} (d s : option A) : option A := if clash_ptr d s then s else None.

Definition clash_slice {A} (d s : list A) : bool := negb (is_empty s) && negb (is_empty d).
Definition keep_slice {A} (d s : list A) : list A := if clash_slice d s then [] else if is_empty d then s else d.
Definition drem_slice {A} (d s : list A) : list A := if clash_slice d s then d else [].
Definition srem_slice {A} (d s : list A) : list A := if clash_slice d s then s else [].

(** pkg/crd/flatten.go:121-126: a type conflict is reported and dst's type kept. *)
Definition keep_type (d s : string) : string := if String.eqb d "" then s else d.
Definition type_error (d s : string) : list (string * string) := if clash_str d s then [(d, s)] else [].

(** pkg/crd/flatten.go:146-149, XPreserveUnknownFields and XMapType: the last one wins. *)
Definition last_ptr {A} (d s : option A) : option A := match s with None => d | _ => s end.

(** The keywords left in dst. Booleans: false is the zero value and true never conflicts with true. Title, description,
    example and externalDocs are not merged (79-82); required is concatenated (119-120); validation rules of src come
    first (150-151). *)
Definition kw_keep (d s : kw) : kw :=
@DST@

(** The keywords of dstRemainder. *)
Definition kw_drem (d s : kw) : kw :=
@DREM@

(** The keywords of srcRemainder. *)
Definition kw_srem (d s : kw) : kw :=
@SREM@

Definition kw_clash (d s : kw) : bool :=
@FLAG@

(** pkg/crd/flatten.go:170-181, removing duplicates of required and sorting. *)
Definition dedup_required (k : kw) : kw := set_k_required k (sort_strings (dedup (k_required k))).

(** An error: the two conflicting types (pkg/crd/flatten.go:124). *)
Definition terr := (string * string)%type.

(** The structural fields with the default conflict resolution: Items, OneOf, AnyOf, Not, PatternProperties,
    Dependencies, AdditionalItems, Definitions. *)
Definition struct_clash (d s : schema) : bool :=
  clash_ptr (s_items d) (s_items s) || clash_slice (s_oneOf d) (s_oneOf s) || clash_slice (s_anyOf d) (s_anyOf s)
  || clash_ptr (s_not d) (s_not s) || clash_slice (s_patprops d) (s_patprops s) || clash_slice (s_deps d) (s_deps s)
  || clash_ptr (s_addl_items d) (s_addl_items s) || clash_slice (s_defs d) (s_defs s).

(** dstRemainder and srcRemainder, pkg/crd/flatten.go:63-66. *)
Definition dst_remainder (d s : schema) : schema :=
  Sch (kw_drem (s_kw d) (s_kw s)) (drem_ptr (s_items d) (s_items s)) [] (drem_slice (s_oneOf d) (s_oneOf s))
    (drem_slice (s_anyOf d) (s_anyOf s)) (drem_ptr (s_not d) (s_not s)) [] None (drem_slice (s_patprops d) (s_patprops s))
    (drem_slice (s_deps d) (s_deps s)) (drem_ptr (s_addl_items d) (s_addl_items s)) (drem_slice (s_defs d) (s_defs s)).
Definition src_remainder (d s : schema) : schema :=
  Sch (kw_srem (s_kw d) (s_kw s)) (srem_ptr (s_items d) (s_items s)) [] (srem_slice (s_oneOf d) (s_oneOf s))
    (srem_slice (s_anyOf d) (s_anyOf s)) (srem_ptr (s_not d) (s_not s)) [] None (srem_slice (s_patprops d) (s_patprops s))
    (srem_slice (s_deps d) (s_deps s)) (srem_ptr (s_addl_items d) (s_addl_items s)) (srem_slice (s_defs d) (s_defs s)).

(** One round of pkg/crd/flatten.go:58-181 for a src whose allOf is already merged; [props] and [addl] are the merged
    properties and additionalProperties. *)
Definition merge_node (d s : schema) (props : list (string * schema)) (addl : option (bool * option schema)) : schema :=
  Sch (dedup_required (kw_keep (s_kw d) (s_kw s)))
    (keep_ptr (s_items d) (s_items s))
    (s_allOf d ++ (if kw_clash (s_kw d) (s_kw s) || struct_clash d s then [dst_remainder d s; src_remainder d s] else []))
    (keep_slice (s_oneOf d) (s_oneOf s)) (keep_slice (s_anyOf d) (s_anyOf s)) (keep_ptr (s_not d) (s_not s))
    props addl (keep_slice (s_patprops d) (s_patprops s)) (keep_slice (s_deps d) (s_deps s))
    (keep_ptr (s_addl_items d) (s_addl_items s)) (keep_slice (s_defs d) (s_defs s)).

(** pkg/crd/flatten.go:52-181, flattenAllOfInto: the new dst and the errors. The properties of src are merged one key at
    a time (110-118); the keys are independent, so the iteration order only affects the order of the errors and is
    taken to be the list order. *)
Fixpoint flatten_into (dst src : schema) {struct src} : schema * list terr :=
  let (d, es0) := fold_left (fun acc e => let (d', es') := flatten_into (fst acc) e in (d', snd acc ++ es'))
                            (s_allOf src) (dst, []) in
  let es1 := type_error (k_type (s_kw d)) (k_type (s_kw src)) in
  let (props, es2) := fold_left (fun acc p =>
      match mget String.eqb (fst acc) (fst p) with
      | None => (mset String.eqb (fst acc) (fst p) (snd p), snd acc)
      | Some dp => let (dp', es') := flatten_into dp (snd p) in (mset String.eqb (fst acc) (fst p) dp', snd acc ++ es')
      end) (s_props src) (s_props d, []) in
  let (addl, es3) :=
    match s_addl src, s_addl d with
    | None, a => (a, [])
    | Some a, None => (Some a, [])
    | Some (_, None), Some a => (Some a, [])                                   (* 134-137 *)
    | Some (_, Some x), Some (b, o) =>                                         (* 138-142 *)
        let (x', es') := flatten_into (match o with Some y => y | None => schema0 end) x in (Some (b, Some x'), es')
    end in
  (merge_node d src props addl, es0 ++ es1 ++ es2 ++ es3).

(** pkg/crd/flatten.go:191-204, allOfVisitor.Visit on a node. *)
Definition allof_visit (s : schema) : schema * list terr :=
  fold_left (fun acc e => let (d', es') := flatten_into (fst acc) e in (d', snd acc ++ es')) (s_allOf s) (set_allOf s [], []).

(** pkg/crd/flatten.go:213-217, FlattenEmbedded: the flattened schema and the errors. None: out of fuel. *)
Definition flatten_embedded (ord : list string -> list string) (fuel : nat) (s : schema) : option (schema * list terr) :=
  walk (fun (_ : unit) s es => let (s', es') := allof_visit s in (s', es ++ es', Some tt)) (fun _ s es => (s, es)) ord fuel tt s [].

(** ** References *)

(** pkg/crd/flatten.go:335-366, preserveFields. *)
Definition clear_docs (k : kw) : kw := set_k_ref (set_k_example (set_k_ext_docs (set_k_title (set_k_desc k "") "") None) None) None.
Definition preserve_fields (dst src : schema) : schema :=
  let kd := s_kw dst in let ks := s_kw src in
  let k := set_k_desc (set_k_title (set_k_ext_docs (set_k_example kw0
      (match k_example ks with Some e => Some e | None => k_example kd end))
      (match k_ext_docs ks with Some e => Some e | None => k_ext_docs kd end))
      (if String.eqb (k_title ks) "" then k_title kd else k_title ks))
      (if String.eqb (k_desc ks) "" then k_desc kd else k_desc ks) in
  set_allOf (with_kw schema0 k) [dst; with_kw src (clear_docs ks)].

Section Flattener.
  (** A TypeIdent: package and name. *loader.Package pointers are modelled by import paths (one package per path). *)
  Definition ident := (string * string)%type.
  Definition ident_eqb (a b : ident) : bool := String.eqb (fst a) (fst b) && String.eqb (snd a) (snd b).

  (** Flattener.LookupReference (pkg/crd/flatten.go:226): reference and current package to type, or an error. *)
  Variable lookup : string -> string -> option ident.
  (** loadUnflattenedSchema (pkg/crd/flatten.go:250-258): the parser's schema of a type, after NeedSchemaFor. *)
  Variable env : ident -> option schema.
  Variable ord : list string -> list string.

  (** pkg/crd/flatten.go:369-376, flattenVisitor; currentSchema is the node the visitor was made for. *)
  Record fvisitor := mkFv { fv_pkg : string; fv_type : option ident; fv_field : schema }.
  (** The cache and the recorded errors (package, reference). *)
  Record fstate := mkFs { fs_cache : list (ident * schema); fs_errs : list (string * string) }.

  Definition fs_add (st : fstate) (e : string * string) : fstate := mkFs (fs_cache st) (fs_errs st ++ [e]).
  (** pkg/crd/flatten.go:244-247, cacheType. *)
  Definition fs_put (st : fstate) (id : ident) (s : schema) : fstate := mkFs (mset ident_eqb (fs_cache st) id s) (fs_errs st).

  (** pkg/crd/flatten.go:390-445, Visit on a node. *)
  Definition fv_visit (v : fvisitor) (s : schema) (st : fstate) : schema * fstate * option fvisitor :=
    match k_ref (s_kw s) with
    | Some (String _ _ as r) =>
        match lookup r (fv_pkg v) with
        | None => (s, fs_add st (fv_pkg v, r), None)
        | Some id =>
            match mget ident_eqb (fs_cache st) id with
            | Some cs => (preserve_fields cs s, st, None)
            | None =>
                match env id with
                | None => (s, fs_add st (fv_pkg v, r), None)
                | Some base => (base, fs_put st id schema0, Some (mkFv (fst id) (Some id) s))
                end
            end
        end
    | _ => (s, st, Some (match fv_type v with Some _ => mkFv (fv_pkg v) None schema0 | None => v end))
    end.

  (** pkg/crd/flatten.go:379-388, Visit(nil). *)
  Definition fv_finish (v : fvisitor) (s : schema) (st : fstate) : schema * fstate :=
    match fv_type v with
    | Some id => (preserve_fields s (fv_field v), fs_put st id s)
    | None => (s, st)
    end.

  (** pkg/crd/flatten.go:278-286, FlattenSchema. *)
  Definition flatten_schema (fuel : nat) (s : schema) (pkg : string) (st : fstate) : option (schema * fstate) :=
    walk fv_visit fv_finish ord fuel (mkFv pkg None schema0) s st.

  (** pkg/crd/flatten.go:262-275, FlattenType. The inner None is the nil result after an error. *)
  Definition flatten_type (fuel : nat) (id : ident) (st : fstate) : option (option schema * fstate) :=
    match mget ident_eqb (fs_cache st) id with
    | Some cs => Some (Some cs, st)
    | None =>
        match env id with
        | None => Some (None, fs_add st id)
        | Some base =>
            match flatten_schema fuel base (fst id) st with
            | None => None
            | Some (s, st') => Some (Some s, fs_put st' id s)
            end
        end
    end.
End Flattener.
