(** * The CRD generator, from the comments of the sources to the files

    The collector with the tables (SourceModel), indexing (pkg/crd/parser.go:126-158) and the generator as a whole (WholeModel) put together:
    the markers of a type, of a field and of a package, and the groups and versions, are those of the comments. Definitions only.

    A package is its files, as the collector sees them, and its type declarations with what go/types says of them; a declaration
    and a field name the node of the files that they are. *)
From Coq Require Import List String Bool ZArith NArith QArith.
From Verif Require Import GoLib SchemaModel ErrorsModel MarkModel StructModel FlattenModel NeedModel CrdModel RegistryModel CollectModel TablesModel SourceModel WholeModel.
Import ListNotations.
Open Scope string_scope.
Open Scope list_scope.

(** A field, before its markers are looked up: pkg/markers/zip.go:197-220 *)
Record dfield := mkDField { df_node : nat; df_name : string; df_exported : bool; df_doc : string; df_json : option string; df_type : texpr }.
(** A type declaration: pkg/markers/zip.go:222-231 *)
Record tdecl := mkTDecl { td_node : nat; td_name : string; td_doc : string; td_fields : list dfield; td_raw : texpr; td_json : bool; td_text : bool }.
(** loader.Package: Syntax, Name, and what EachType finds. pkg/crd/parser.go:126-158 *)
Record gpackage := mkGPackage { gp_files : SourceModel.package; gp_name : string; gp_decls : list tdecl }.

Section Origin.
  (** As in SourceModel *)
  Variable fval : string -> option Q.
  Variable json_read : string -> option json.
  Variable gs : list generator.
  Variable forder : file -> list (nat * list marker) -> list (nat * list marker).
  Variable vorder : list (string * list tvalue) -> list (string * list tvalue).
  (** The packages the parser comes to, by path *)
  Variable srcs : list (string * gpackage).
  (** pkg.Imports, and the path of metav1: pkg/crd/gen.go:255-314 *)
  Variable imports : string -> string -> bool.
  Variable metav1 : string.

  (** PackageMarkers, pkg/crd/parser.go:128 and :187; nothing after an error *)
  Definition package_marks (gp : gpackage) : mvals := match package_set fval json_read gs forder vorder (gp_files gp) with Some (inl m) => m | _ => [] end.
  (** markers[spec] and markers[field], pkg/markers/zip.go:206 and :224 *)
  Definition marks (gp : gpackage) (id : nat) : mvals := match node_set fval json_read gs forder (gp_files gp) id with Some (inl m) => m | _ => [] end.
  (** indexTypes comes to EachType, and that to its callback: pkg/crd/parser.go:128-147 *)
  Definition indexed (gp : gpackage) : bool :=
    match package_set fval json_read gs forder vorder (gp_files gp) with
    | Some (inl m) => match of_name m "kubebuilder:skip" with [] => true | _ => false end
    | _ => false
    end.
  (** pkg/markers/zip.go:200-217 *)
  Definition field_info (gp : gpackage) (fd : dfield) : finfo :=
    mkFInfo (df_name fd) (df_exported fd) (df_doc fd) (df_json fd) (schema_set (marks gp (df_node fd))) (df_type fd).
  (** pkg/markers/zip.go:222-231 *)
  Definition type_info (gp : gpackage) (d : tdecl) : tinfo :=
    mkTInfo (td_name d) (td_doc d) (schema_set (marks gp (td_node d))) (map (field_info gp) (td_fields d)) (td_raw d) (td_json d) (td_text d).
  (** p.Types after the package was indexed: of several types of a name, the last. pkg/crd/parser.go:147-154 *)
  Definition find_type (gp : gpackage) (n : string) : option tdecl := if indexed gp then find (fun d => String.eqb (td_name d) n) (rev (gp_decls gp)) else None.
  (** p.Types, pkg/crd/parser.go:153 *)
  Definition source_types (id : ident) : option tinfo :=
    match mget String.eqb srcs (fst id) with Some gp => option_map (type_info gp) (find_type gp (snd id)) | None => None end.
  (** pkg/crd/parser.go:187-191 *)
  Definition source_pkg_markers (p : string) : marker_values := match mget String.eqb srcs p with Some gp => schema_set (package_marks gp) | None => [] end.
  (** What NeedCRDFor gets of a type's markers, pkg/crd/spec.go:116-128 *)
  Definition crd_set (m : mvals) : cmarkers := map (fun kv => (fst kv, map crd_value (snd kv))) m.
  (** info.Markers, pkg/crd/spec.go:110-128 *)
  Definition source_crd_markers (id : ident) : cmarkers :=
    match mget String.eqb srcs (fst id) with
    | Some gp => match find_type gp (snd id) with Some d => crd_set (marks gp (td_node d)) | None => [] end
    | None => []
    end.
  (** p.GroupVersions[pkg], pkg/crd/parser.go:135-145. The values are texts (C58). *)
  Definition group_version (gp : gpackage) : option (string * string) :=
    if indexed gp then
      match of_name (package_marks gp) "groupName" with
      | TvText g :: _ =>
          match of_name (package_marks gp) "versionName" with
          | [] => Some (g, gp_name gp)
          | TvText v :: _ => Some (g, v)
          | _ => None
          end
      | _ => None
      end
    else None.
  (** p.GroupVersions, pkg/crd/parser.go:141-144 *)
  Definition source_groups : list (string * (string * string)) :=
    flat_map (fun pg => match group_version (snd pg) with Some gv => [(fst pg, gv)] | None => [] end) srcs.
  (** The names of the types of metav1 that a type embeds: pkg/crd/gen.go:279-314 *)
  Definition metav1_names (path : string) (d : tdecl) : list string :=
    flat_map (fun fd => if String.eqb (df_name fd) "" then
                          match type_of (df_type fd) with
                          | TNamed (OPkg p) n _ => if String.eqb (non_vendor_path p) metav1 && imports path metav1 then [n] else []
                          | _ => []
                          end
                        else []) (td_fields d).
  (** The types that FindKubeKinds goes through: pkg/crd/gen.go:271-272 *)
  Definition source_embedded : list ((string * string) * list string) :=
    flat_map (fun pg => if indexed (snd pg) then map (fun d => ((fst pg, td_name d), metav1_names (fst pg) d)) (gp_decls (snd pg)) else []) srcs.
  (** The comments that are reported as errors: pkg/crd/parser.go:130 *)
  Definition comment_errors : list comment :=
    flat_map (fun pg => match package_set fval json_read gs forder vorder (gp_files (snd pg)) with Some (inr e) => e | _ => [] end) srcs.

  (** As in WholeModel *)
  Variable order : marker_values -> marker_values.
  Variable sorted : list (string * smarker) -> list (string * smarker).
  Variable allow_dangerous ignore_unexported : bool.
  Variable presets : string -> list (string * schema).
  Variable ord : list string -> list string.
  Variable is_sterm is_space : N -> bool.
  Variable fuel : nat.
  Variable max_desc : option Z.
  Variable pluralize lower : string -> string.
  Variable gv_order : list (string * (string * string)) -> list (string * (string * string)).
  Variable m_order : cmarkers -> cmarkers.
  Variable v_sort : list version -> list version.
  Variable tool_version : string.
  Variable t_order : list ((string * string) * list string) -> list ((string * string) * list string).
  Variable k_order k_sort : list (string * string) -> list (string * string).
  (** Generate, pkg/crd/gen.go:126-212 *)
  Definition run_sources (vers : list string) : wres :=
    run_crd order sorted allow_dangerous ignore_unexported imports source_pkg_markers source_types presets ord is_sterm is_space fuel max_desc
      source_crd_markers pluralize lower gv_order m_order v_sort source_groups tool_version t_order source_embedded k_order k_sort vers.
End Origin.
