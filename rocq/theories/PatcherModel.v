(** * The schema patcher, from the Go types and the directory of manifests to the files

    Generate, pkg/schemapatcher/gen.go:89-210, put together from the model of patching (YamlModel) and that of the schema of a type
    (EmitModel), with the reading of the directory. Definitions only.

    The parser keeps what it made between the types; C37 says that this makes no difference. Replacing the schema of metadata is done on the
    parser's own copy of the flattened schema (pkg/schemapatcher/gen.go:138-140), which is asked for once per type. *)
From Coq Require Import List String Ascii Bool ZArith NArith.
From Verif Require Import GoLib SchemaModel MarkModel StructModel FlattenModel NeedModel DescModel CrdModel EmitModel YamlModel.
Import ListNotations.
Open Scope string_scope.
Open Scope list_scope.

(** filepath.Ext of a name without slashes, for pkg/schemapatcher/gen.go:343 *)
Fixpoint extension (s : string) : string :=
  match s with
  | EmptyString => EmptyString
  | String c s' => match extension s' with EmptyString => if Ascii.eqb c "." then s else EmptyString | e => e end
  end.

(** How Generate ends, pkg/schemapatcher/gen.go:89-210: the files written and the types with errors from making their schema; or an error,
    with nothing written; or a panic. Errors of writing are not modelled. *)
Inductive pres := PDone (written : list (string * node)) (reported : list ident) | PFailed | PPanic | PFuel.

Section Directory.
  (** ctx.ReadFile of a file of the directory *)
  Variable read : string -> option string.
  (** kyaml.Unmarshal of a text as TypeMeta (apiVersion, kind) and as crdIsh (group, kind, names of versions); yaml.Unmarshal of it *)
  Variable type_meta : string -> option (string * string).
  Variable crd_ish : string -> option (gk * list string).
  Variable tree : string -> option node.
  (** crdsFromDirectory, pkg/schemapatcher/gen.go:335-406, without the storing in sets (YamlModel.load). Entries are names, with whether it is a
      directory. None: error. *)
  Fixpoint read_crds (entries : list (string * bool)) : option (list (string * (gk * list string * node))) :=
    match entries with
    | [] => Some []
    | (name, is_dir) :: entries' =>
        if is_dir || negb (String.eqb (extension name) ".yaml") then read_crds entries'
        else match read name with
        | None => None
        | Some raw =>
            match type_meta raw with
            | None => read_crds entries'
            | Some (api_version, kind) =>
                if String.eqb api_version "" || negb (String.eqb kind "CustomResourceDefinition") then read_crds entries'
                else if negb (String.eqb api_version "apiextensions.k8s.io/v1") then None
                else match crd_ish raw with
                | None => read_crds entries'
                | Some (g, vers) =>
                    match tree raw with
                    | None => read_crds entries'
                    | Some doc => match read_crds entries' with Some l => Some ((name, (g, vers, doc)) :: l) | None => None end
                    end
                end
            end
        end
    end.
End Directory.

Section Patcher.
  (** As in EmitModel *)
  Variable order : marker_values -> marker_values.
  Variable sorted : list (string * smarker) -> list (string * smarker).
  Variable allow_dangerous ignore_unexported : bool.
  Variable imports : string -> string -> bool.
  Variable pkg_markers : string -> marker_values.
  Variable types : ident -> option tinfo.
  Variable presets : string -> list (string * schema).
  Variable ord : list string -> list string.
  Variable is_sterm is_space : N -> bool.
  Variable fuel : nat.
  Variable max_desc : option Z.
  (** As in CrdModel *)
  Variable gv_order : list (string * (string * string)) -> list (string * (string * string)).
  Variable group_versions : list (string * (string * string)).
  Variable t_order : list ((string * string) * list string) -> list ((string * string) * list string).
  Variable embedded : list ((string * string) * list string).
  Variable k_order k_sort : list (string * string) -> list (string * string).
  (** As in YamlModel *)
  Variable to_yaml : schema -> option node.
  Variable short_tag : node -> string.
  Variable s_order : list (gk * crdset schema) -> list (gk * crdset schema).
  (** As above *)
  Variable read : string -> option string.
  Variable type_meta : string -> option (string * string).
  Variable crd_ish : string -> option (gk * list string).
  Variable tree : string -> option node.
  (** Whether FindMetav1 finds something, pkg/schemapatcher/gen.go:103-107 *)
  Variable has_metav1 : bool.

  (** pkg/schemapatcher/gen.go:129-135 *)
  Definition made (id : ident) : eres := emit order sorted allow_dangerous ignore_unexported imports pkg_markers types presets ord is_sterm is_space fuel max_desc id.
  (** pkg/schemapatcher/gen.go:137-140 *)
  Definition plain_metadata (s : schema) : schema :=
    match mget String.eqb (s_props s) "metadata" with
    | Some _ => set_props s (mset String.eqb (s_props s) "metadata" (set_type schema0 "object"))
    | None => s
    end.
  (** pkg/schemapatcher/gen.go:129-142 *)
  Definition new_schema (p k : string) : schema := match made (p, k) with EDone s _ _ _ => plain_metadata s | _ => schema0 end.
  (** The kinds of pkg/schemapatcher/gen.go:116 *)
  Definition kinds : list gk := find_kinds group_versions t_order embedded k_order k_sort.
  (** The types for which a schema is asked: pkg/schemapatcher/gen.go:116-130. There is no check that the type exists. *)
  Definition wanted (sets : list (gk * crdset schema)) : list ident :=
    flat_map (fun g => match mget gk_eqb sets g with
                       | None => []
                       | Some s => flat_map (fun p => if String.eqb (fst (snd p)) (fst g) && mem_str (snd (snd p)) (cs_versions schema s) then [(fst p, snd g)] else [])
                                     (gv_order group_versions)
                       end) kinds.
  (** Errors added to packages while a schema was made, as in WholeModel.reports: pkg/schemapatcher/gen.go:130 *)
  Definition complains (id : ident) : bool := match made id with EDone _ [] [] [] => false | EDone _ _ _ _ => true | _ => false end.
  (** Generate, pkg/schemapatcher/gen.go:89-210. [entries]: what os.ReadDir gives. *)
  Definition run_patcher (entries : option (list (string * bool))) : pres :=
    if negb has_metav1 then PDone [] []
    else match entries with
    | None => PFailed
    | Some es =>
        match read_crds read type_meta crd_ish tree es with
        | None => PFailed
        | Some files =>
            let sets := load schema files in
            if existsb (fun id => match made id with EFuel => true | _ => false end) (wanted sets) then PFuel
            else if existsb (fun id => match made id with EPanic => true | _ => false end) (wanted sets) then PPanic
            else match YamlModel.generate schema to_yaml short_tag new_schema gv_order s_order kinds group_versions sets with
                 | YamlModel.Done out => PDone out (filter complains (wanted sets))
                 | YamlModel.Failed => PFailed
                 | YamlModel.Panics => PPanic
                 end
        end
    end.
End Patcher.
