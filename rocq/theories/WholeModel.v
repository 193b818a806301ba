(** * The CRD generator, from the Go types to the files

    Generate, pkg/crd/gen.go:126-212, put together from the model of CRD assembly (CrdModel) and that of the schema of a type
    (EmitModel). Definitions only.

    NeedCRDFor asks for the schema of the kind in each package of the group that has it (pkg/crd/spec.go:86-97). The parser keeps what it
    made between these calls; C37 says that this makes no difference. What was reported is given by the types for which something was,
    not by the texts. *)
From Coq Require Import List String Bool ZArith NArith.
From Verif Require Import GoLib SchemaModel MarkModel StructModel FlattenModel NeedModel DescModel CrdModel EmitModel.
Import ListNotations.
Open Scope string_scope.
Open Scope list_scope.

(** How Generate ends, pkg/crd/gen.go:126-212: the files written; whether it returned an error; the errors of NeedCRDFor; the types with
    errors from making their schema *)
Inductive wres := WDone (written : list (string * crd)) (failed : bool) (errs : list (string * cerr)) (reported : list ident) | WPanic | WFuel.

Section Whole.
  (** As in EmitModel *)
  Variable order : marker_values -> marker_values.
  Variable sorted : list (string * smarker) -> list (string * smarker).
  Variable allow_dangerous ignore_unexported : bool.
  Variable imports : string -> string -> bool.
  Variable pkg_markers : string -> marker_values.
  Variable types : ident -> option tinfo.
  Variable presets : string -> list (string * schema).
  Variable ord : list string -> list string.
  Variable is_sterm is_space : N -> bool.
  Variable fuel : nat.
  Variable max_desc : option Z.
  (** The markers of a type that are for CRDs *)
  Variable crd_markers : ident -> cmarkers.
  (** As in CrdModel *)
  Variable pluralize lower : string -> string.
  Variable gv_order : list (string * (string * string)) -> list (string * (string * string)).
  Variable m_order : cmarkers -> cmarkers.
  Variable v_sort : list version -> list version.
  Variable group_versions : list (string * (string * string)).
  Variable tool_version : string.
  Variable t_order : list ((string * string) * list string) -> list ((string * string) * list string).
  Variable embedded : list ((string * string) * list string).
  Variable k_order k_sort : list (string * string) -> list (string * string).

  (** p.Types, as CrdModel takes it: pkg/crd/spec.go:87-90 and :110-113 *)
  Definition marked_types (id : ident) : option cmarkers := match types id with Some _ => Some (crd_markers id) | None => None end.
  (** pkg/crd/spec.go:91-97 *)
  Definition emitted (id : ident) : eres := emit order sorted allow_dangerous ignore_unexported imports pkg_markers types presets ord is_sterm is_space fuel max_desc id.
  (** The FlattenedSchemata of pkg/crd/spec.go:92, shortened *)
  Definition schema_of_type (id : ident) : schema := match emitted id with EDone s _ _ _ => s | _ => schema0 end.
  (** The types for which NeedCRDFor asks for a schema: pkg/crd/gen.go:180-181, spec.go:86-92 *)
  Definition asked_types : list ident :=
    flat_map (fun gk => flat_map (fun x => match types (fst x, snd gk) with Some _ => [(fst x, snd gk)] | None => [] end) (packages_of gv_order group_versions (fst gk)))
      (find_kinds group_versions t_order embedded k_order k_sort).
  (** Errors added to packages while the schema was made: pkg/crd/parser.go:168-194, flatten.go:265-267 and the loader's AddError *)
  Definition reports (id : ident) : bool := match emitted id with EDone _ [] [] [] => false | EDone _ _ _ _ => true | _ => false end.
  (** pkg/crd/gen.go:126-212 *)
  Definition run_crd (vers : list string) : wres :=
    if existsb (fun id => match emitted id with EFuel => true | _ => false end) asked_types then WFuel
    else if existsb (fun id => match emitted id with EPanic => true | _ => false end) asked_types then WPanic
    else match generate pluralize lower gv_order m_order v_sort group_versions marked_types schema_of_type tool_version t_order embedded k_order k_sort vers with
         | GPanic => WPanic
         | GDone w failed errs => WDone w failed errs (filter reports asked_types)
         end.
End Whole.
