(** * Model of CRD assembly: pkg/crd/spec.go, pkg/crd/markers/crd.go and the generator of pkg/crd/gen.go.
    Definitions only.

    Packages are import paths. The flattened, truncated schema of a kind in a package (spec.go:91-96) is given: see FlattenModel and DescModel. *)

From Coq Require Import List String Ascii Bool ZArith.
From Verif Require Import GoLib SchemaModel.
Import ListNotations.
Open Scope nat_scope.
Open Scope string_scope.
Open Scope list_scope.

(** ** apiextensions/v1 *)
Record scale := mkScale { sc_spec : string; sc_status : string; sc_selector : option string }.
(** apiext.CustomResourceColumnDefinition, set in pkg/crd/markers/crd.go:223-250 *)
Record column := mkColumn { co_name : string; co_type : string; co_path : string; co_desc : string; co_format : string; co_priority : Z }.
(** apiext.CustomResourceSubresources, set in pkg/crd/markers/crd.go:74-135 *)
Record subresources := mkSub { su_status : bool; su_scale : option scale }.
(** apiext.CustomResourceDefinitionVersion, made in pkg/crd/spec.go:97-103 *)
Record version := mkVersion { v_name : string; v_served : bool; v_storage : bool; v_deprecated : bool; v_warning : option string; v_schema : schema;
  v_sub : option subresources; v_columns : list column; v_fields : list string }.
(** apiext.CustomResourceDefinitionNames, set in pkg/crd/spec.go:74-79 and pkg/crd/markers/crd.go:288-306 *)
Record names := mkNames { n_plural : string; n_singular : string; n_kind : string; n_list_kind : string; n_short : list string; n_categories : list string; n_scope : string }.
(** Annotations and labels: nil and empty are the same. apiext.CustomResourceDefinition, made in
    pkg/crd/spec.go:65-83. *)
Record crd := mkCrd { c_name : string; c_annotations : list (string * string); c_labels : list (string * string); c_group : string; c_names : names; c_versions : list version }.

(** pkg/crd/markers/crd.go: the markers, and any other value *)
Record resource := mkResource { r_path : string; r_short : list string; r_categories : list string; r_singular : string; r_scope : string }.
(** The values with an ApplyToCRD method, pkg/crd/markers/crd.go:74-421 *)
Inductive cval := CStatus | CScale (s : scale) | CStorage | CSkip | CColumn (c : column) | CResource (r : resource) | CUnserved | CDeprecated (w : option string)
  | CMetadata (annotations labels : list string) | CSelectable (path : string) | COther.

(** Assignment to Spec.Versions, pkg/crd/spec.go:104 *)
Definition set_versions (c : crd) (vs : list version) : crd := mkCrd (c_name c) (c_annotations c) (c_labels c) (c_group c) (c_names c) vs.
(** Assignment to Spec.Names, pkg/crd/markers/crd.go:288-306 *)
Definition set_names (c : crd) (n : names) : crd := mkCrd (c_name c) (c_annotations c) (c_labels c) (c_group c) n (c_versions c).
(** Assignment to Annotations and Labels, pkg/crd/markers/crd.go:367-392 *)
Definition set_meta (c : crd) (a l : list (string * string)) : crd := mkCrd (c_name c) a l (c_group c) (c_names c) (c_versions c).
(** Assignment to Name, pkg/crd/markers/crd.go:288-306 *)
Definition set_cname (c : crd) (n : string) : crd := mkCrd n (c_annotations c) (c_labels c) (c_group c) (c_names c) (c_versions c).
(** Assignment to Served, pkg/crd/spec.go:99 and pkg/crd/markers/crd.go:315-325 *)
Definition set_served (v : version) (b : bool) : version := mkVersion (v_name v) b (v_storage v) (v_deprecated v) (v_warning v) (v_schema v) (v_sub v) (v_columns v) (v_fields v).
(** Assignment to Storage, pkg/crd/spec.go:146-151 and pkg/crd/markers/crd.go:146-161 *)
Definition set_storage (v : version) (b : bool) : version := mkVersion (v_name v) (v_served v) b (v_deprecated v) (v_warning v) (v_schema v) (v_sub v) (v_columns v) (v_fields v).
(** Assignment to Deprecated and DeprecationWarning, pkg/crd/markers/crd.go:337-353 *)
Definition set_deprecated (v : version) (w : option string) : version := mkVersion (v_name v) (v_served v) (v_storage v) true w (v_schema v) (v_sub v) (v_columns v) (v_fields v).
(** Assignment to Subresources, pkg/crd/markers/crd.go:74-135 *)
Definition set_sub (v : version) (s : subresources) : version := mkVersion (v_name v) (v_served v) (v_storage v) (v_deprecated v) (v_warning v) (v_schema v) (Some s) (v_columns v) (v_fields v).
(** Assignment to AdditionalPrinterColumns, pkg/crd/markers/crd.go:223-250 *)
Definition set_columns (v : version) (l : list column) : version := mkVersion (v_name v) (v_served v) (v_storage v) (v_deprecated v) (v_warning v) (v_schema v) (v_sub v) l (v_fields v).
(** Assignment to SelectableFields, pkg/crd/markers/crd.go:402-421 *)
Definition set_fields (v : version) (l : list string) : version := mkVersion (v_name v) (v_served v) (v_storage v) (v_deprecated v) (v_warning v) (v_schema v) (v_sub v) (v_columns v) l.
(** Assignment to a version's Schema, pkg/crd/gen.go:214-231 *)
Definition set_vschema (v : version) (s : schema) : version := mkVersion (v_name v) (v_served v) (v_storage v) (v_deprecated v) (v_warning v) s (v_sub v) (v_columns v) (v_fields v).

(** The loops over crd.Versions: the first version of that name; None if there is none. pkg/crd/markers/crd.go:76-82
    and its copies in the other ApplyToCRD methods. *)
Fixpoint on_first (name : string) (f : version -> version) (l : list version) : option (list version) :=
  match l with
  | [] => None
  | v :: l' => if String.eqb (v_name v) name then Some (f v :: l') else match on_first name f l' with Some l'' => Some (v :: l'') | None => None end
  end.
(** The check for nil of Subresources, pkg/crd/markers/crd.go:84-90 and :125-131 *)
Definition subs (v : version) : subresources := match v_sub v with Some s => s | None => mkSub false None end.

(** strings.SplitN(s, "=", 2); None: only one part. The calls in pkg/crd/markers/crd.go:373 and :386. *)
Fixpoint cut_eq (s : string) : option (string * string) :=
  match s with
  | EmptyString => None
  | String c s' => if Ascii.eqb c "="%char then Some ("", s') else match cut_eq s' with Some (a, b) => Some (String c a, b) | None => None end
  end.
(** pkg/crd/markers/crd.go:367-392, annotations: up to the first that is wrong *)
Fixpoint add_annotations (l : list string) (m : list (string * string)) : list (string * string) * bool :=
  match l with
  | [] => (m, false)
  | s :: l' => match cut_eq s with Some (k, v) => add_annotations l' (mset String.eqb m k v) | None => (m, true) end
  end.
(** labels: None for a panic. pkg/crd/markers/crd.go:381-390. *)
Fixpoint add_labels (l : list string) (m : list (string * string)) : option (list (string * string)) :=
  match l with
  | [] => Some m
  | s :: l' => match cut_eq s with Some (k, v) => add_labels l' (mset String.eqb m k v) | None => None end
  end.

(** The ApplyToCRD methods: the CRD and whether there was an error; None for a panic. pkg/crd/markers/crd.go:74-421. *)
Definition apply_crd (m : cval) (ver : string) (c : crd) : option (crd * bool) :=
  (* an error if the version is not there *)
  let must f := match on_first ver f (c_versions c) with Some vs => Some (set_versions c vs, false) | None => Some (c, true) end in
  (* nothing if it is not *)
  let may f := match on_first ver f (c_versions c) with Some vs => Some (set_versions c vs, false) | None => Some (c, false) end in
  match m with
  (* :74-92 *)
  | CStatus => must (fun v => set_sub v (mkSub true (su_scale (subs v))))
  (* :113-135 *)
  | CScale s => must (fun v => set_sub v (mkSub (su_status (subs v)) (Some s)))
  (* :146-161 *)
  | CStorage => if String.eqb ver "" then Some (c, false) else may (fun v => set_storage v true)
  (* :172-189 *)
  | CSkip => if String.eqb ver "" then Some (c, true) else Some (set_versions c (filter (fun v => negb (String.eqb (v_name v) ver)) (c_versions c)), false)
  (* :223-250 *)
  | CColumn col => must (fun v => set_columns (set_sub v (subs v)) (v_columns v ++ [col]))
  (* :288-306 *)
  | CResource r =>
      let n := c_names c in
      Some (set_names c (mkNames (if String.eqb (r_path r) "" then n_plural n else r_path r) (if String.eqb (r_singular r) "" then n_singular n else r_singular r)
              (n_kind n) (n_list_kind n) (r_short r) (r_categories r) (if String.eqb (r_scope r) "" then "Namespaced" else r_scope r)), false)
  (* :315-325 *)
  | CUnserved => may (fun v => set_served v false)
  (* :337-353 *)
  | CDeprecated w => if String.eqb ver "" then Some (c, false) else may (fun v => set_deprecated v w)
  (* :367-392 *)
  | CMetadata annotations labels =>
      let '(a, bad) := add_annotations annotations (c_annotations c) in
      if bad then Some (set_meta c a (c_labels c), true)
      else match add_labels labels (c_labels c) with Some l => Some (set_meta c a l, false) | None => None end
  (* :402-421 *)
  | CSelectable p => must (fun v => set_fields v (v_fields v ++ [p]))
  | COther => Some (c, false)
  end.

Inductive cerr := EMarker (m : cval) | ENoStorage | ENotServed.
(** What a call of pkg/crd/spec.go:49-176 does *)
Inductive cres := CDone (c : option crd) (errs : list (string * cerr)) | CPanic.
(** MarkerValues, pkg/markers/collect.go:39-49 *)
Definition cmarkers := list (string * list cval).

(** pkg/crd/spec.go:116-128, for one package *)
Fixpoint apply_vals (pkg ver : string) (l : list cval) (c : crd) : option (crd * list (string * cerr)) :=
  match l with
  | [] => Some (c, [])
  | m :: l' =>
      match apply_crd m ver c with
      | None => None
      | Some (c1, bad) => match apply_vals pkg ver l' c1 with Some (c2, es) => Some (c2, (if bad then [(pkg, EMarker m)] else []) ++ es) | None => None end
      end
  end.

Section Crd.
  (** flect.Pluralize, strings.ToLower *)
  Variable pluralize lower : string -> string.
  (** range over p.GroupVersions, over typeInfo.Markers; sort.Slice *)
  Variable gv_order : list (string * (string * string)) -> list (string * (string * string)).
  Variable m_order : cmarkers -> cmarkers.
  Variable v_sort : list version -> list version.
  (** p.GroupVersions: package, group and version. p.Types: the markers of a type. The schema of a type. *)
  Variable group_versions : list (string * (string * string)).
  Variable types : string * string -> option cmarkers.
  Variable schema_for : string * string -> schema.

  (** pkg/crd/spec.go:108-129 *)
  Fixpoint apply_pkgs (kind : string) (l : list (string * string)) (c : crd) : option (crd * list (string * cerr)) :=
    match l with
    | [] => Some (c, [])
    | (pkg, ver) :: l' =>
        match types (pkg, kind) with
        | None => apply_pkgs kind l' c
        | Some ms =>
            match apply_vals pkg ver (flat_map snd (m_order ms)) c with
            | None => None
            | Some (c1, es1) => match apply_pkgs kind l' c1 with Some (c2, es2) => Some (c2, es1 ++ es2) | None => None end
            end
        end
    end.

  (** pkg/crd/spec.go:64-83: before the versions *)
  Definition crd_for (group kind : string) : crd :=
    let plural := lower (pluralize kind) in
    mkCrd (plural ++ "." ++ group) [] [] group (mkNames plural (lower kind) kind (kind ++ "List") [] [] "Namespaced") [].
  (** pkg/crd/spec.go:56-62: packages of the group, with their versions *)
  Definition packages_of (group : string) : list (string * string) :=
    flat_map (fun x => if String.eqb (fst (snd x)) group then [(fst x, snd (snd x))] else []) (gv_order group_versions).
  (** pkg/crd/spec.go:85-105 *)
  Definition versions_of (kind : string) (packages : list (string * string)) : list version :=
    flat_map (fun x => match types (fst x, kind) with None => [] | Some _ => [mkVersion (snd x) true false false None (schema_for (fst x, kind)) None [] []] end) packages.
  (** pkg/crd/spec.go:145-147 *)
  Definition default_storage (vs : list version) : list version := match vs with [v] => [set_storage v true] | _ => vs end.

  (** pkg/crd/spec.go:49-176, if there is no CRD for the kind yet *)
  Definition need_crd (group kind : string) : cres :=
    let packages := packages_of group in
    let c0 := set_versions (crd_for group kind) (versions_of kind packages) in
    match apply_pkgs kind packages c0 with
    | None => CPanic
    | Some (c1, errs) =>
        let c2 := set_cname c1 (n_plural (c_names c1) ++ "." ++ group) in
        match c_versions c2 with
        | [] => CDone None errs
        | _ =>
            let vs := default_storage (v_sort (c_versions c2)) in
            let first := match packages with (p, _) :: _ => p | [] => "" end in
            CDone (Some (set_versions c2 vs))
              (errs ++ (if existsb v_storage vs then [] else [(first, ENoStorage)]) ++ (if existsb v_served vs then [] else [(first, ENotServed)]))
        end
    end.

  (** ** The generator *)
  (** version.Version() *)
  Variable tool_version : string.

  (** pkg/crd/gen.go:246-251 *)
  Definition add_attribution (c : crd) : crd := set_meta c (mset String.eqb (c_annotations c) "controller-gen.kubebuilder.io/version" tool_version) (c_labels c).
  (** pkg/crd/gen.go:233-242 *)
  Definition fix_metadata (c : crd) : crd :=
    set_versions c (map (fun v => match mget String.eqb (s_props (v_schema v)) "metadata" with
                                  | Some _ => set_vschema v (set_props (v_schema v) (mset String.eqb (s_props (v_schema v)) "metadata" (set_type schema0 "object")))
                                  | None => v end) (c_versions c)).
  (** pkg/crd/gen.go:214-230 *)
  Definition remove_description (c : crd) : crd :=
    set_versions c (map (fun v => match mget String.eqb (s_props (v_schema v)) "metadata" with
                                  | Some m => set_vschema v (set_props (v_schema v) (mset String.eqb (s_props (v_schema v)) "metadata" (set_desc m "")))
                                  | None => v end) (c_versions c)).
  (** pkg/crd/conv.go:27-43: only apiextensions.k8s.io/v1 is left *)
  Definition as_version (c : crd) (ver : string) : option crd := if String.eqb ver "v1" then Some c else None.
  (** pkg/crd/gen.go:199-204 *)
  Definition file_name (c : crd) (i : nat) (ver : string) : string :=
    match i with
    | O => c_group c ++ "_" ++ n_plural (c_names c) ++ ".yaml"
    | S _ => c_group c ++ "_" ++ n_plural (c_names c) ++ "." ++ ver ++ ".yaml"
    end.
  (** The zero CRD: what p.CustomResourceDefinitions[groupKind] gives if there is none. The zero value of the map
      lookup in pkg/crd/gen.go:182. *)
  Definition zero_crd : crd := mkCrd "" [] [] "" (mkNames "" "" "" "" [] [] "") [].
  (** pkg/crd/gen.go:188-195 *)
  Fixpoint all_versions (c : crd) (vers : list string) : option (list crd) :=
    match vers with [] => Some [] | v :: vers' => match as_version c v, all_versions c vers' with Some x, Some l => Some (x :: l) | _, _ => None end end.
  (** pkg/crd/gen.go:197-208 *)
  Fixpoint files (c : crd) (i : nat) (vers : list string) (l : list crd) : list (string * crd) :=
    match vers, l with v :: vers', x :: l' => (file_name c i v, remove_description x) :: files c (S i) vers' l' | _, _ => [] end.

  (** What a call of pkg/crd/gen.go:126-212 does *)
  Inductive gres := GDone (written : list (string * crd)) (failed : bool) (errs : list (string * cerr)) | GPanic.
  (** pkg/crd/gen.go:180-209: the files written in order; [failed]: Generate returned an error. The kinds are distinct, so none has a CRD yet. *)
  Fixpoint generate_kinds (vers : list string) (kinds : list (string * string)) : gres :=
    match kinds with
    | [] => GDone [] false []
    | (group, kind) :: kinds' =>
        match need_crd group kind with
        | CPanic => GPanic
        | CDone o errs =>
            let c := fix_metadata (add_attribution (match o with Some c => c | None => zero_crd end)) in
            match all_versions c vers with
            | None => GDone [] true errs
            | Some l =>
                match generate_kinds vers kinds' with
                | GPanic => GPanic
                | GDone w f es => GDone (files c 0 vers l ++ w) f (errs ++ es)
                end
            end
        end
    end.

  (** ** The kinds *)
  (** What FindKubeKinds looks at: the names of the embedded types of metav1 (pkg/crd/gen.go:279-314) per type, in any order *)
  Variable t_order : list ((string * string) * list string) -> list ((string * string) * list string).
  Variable embedded : list ((string * string) * list string).
  Variable k_order : list (string * string) -> list (string * string).
  Variable k_sort : list (string * string) -> list (string * string).
  Definition gk_eqb (a b : string * string) : bool := String.eqb (fst a) (fst b) && String.eqb (snd a) (snd b).
  (** GroupKind.String. apimachinery's GroupKind.String, for the order in pkg/crd/gen.go:331-333. *)
  Definition gk_string (gk : string * string) : string := if String.eqb (fst gk) "" then snd gk else snd gk ++ "." ++ fst gk.
  (** parser.GroupVersions[pkg].Group, pkg/crd/gen.go:268-336 *)
  Definition group_of (pkg : string) : string := match mget String.eqb group_versions pkg with Some (g, _) => g | None => "" end.
  (** pkg/crd/gen.go:268-336 *)
  Definition add_kind (l : list (string * string)) (gk : string * string) : list (string * string) := if existsb (gk_eqb gk) l then l else l ++ [gk].
  (** pkg/crd/gen.go:268-336 *)
  Definition find_kinds : list (string * string) :=
    let kinds := fold_left (fun l x => if mem_str "ObjectMeta" (snd x) && mem_str "TypeMeta" (snd x) then add_kind l (group_of (fst (fst x)), snd (fst x)) else l) (t_order embedded) [] in
    k_sort (k_order kinds).
  (** pkg/crd/gen.go:126-212, past the loading of packages and the header file *)
  Definition generate (vers : list string) : gres :=
    match find_kinds with
    | [] => GDone [] false []
    | kinds => generate_kinds (match vers with [] => ["v1"] | _ => vers end) kinds
    end.
End Crd.
