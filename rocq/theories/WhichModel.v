(** * controller-gen -wwww: the markers of the generators, as JSON. Definitions only.

    RegistryFromOptions makes a registry of the markers of the generators that the options name (TablesModel: [definitions]); helpForLevels
    prints it (LevelsModel).  Definitions are told apart by their pointers; which these are makes no difference, and neither does the help
    that is registered: both are given. *)

From Coq Require Import List String Ascii Bool Arith.
From Verif Require Import GoLib RegistryModel ParseModel HelpModel LevelsModel.
From Verif Require TablesModel.
Import ListNotations.
Open Scope string_scope.
Open Scope list_scope.

(** A definition with its pointer, pkg/markers/reg.go:26-34 *)
Definition with_pointer (ptr : def TablesModel.payload -> nat) (d : def TablesModel.payload) : hdef :=
  mkDef (d_name d) (d_target d) (mkPayload (ptr d) (TablesModel.p_def (d_payload d))).
(** RegistryFromOptions after protoFromOptions, pkg/genall/options.go:59-63 *)
Definition which_registry (ptr : def TablesModel.payload -> nat) (gs : list TablesModel.generator) : registry payload :=
  register_all payload (map (with_pointer ptr) (TablesModel.definitions gs)).

Section Orders.
(** As in HelpModel. *)
Variable range_defs : list (string * hdef) -> list (string * hdef).
Variable range_fields : list (string * detail) -> list (string * detail).
Variable range_groups : list (string * list hdef) -> list (string * list hdef).
Variable shuffle : list hdef -> list hdef.
Variable shuffle_fields : list field_doc -> list field_doc.

(** printMarkerDocs, cmd/controller-gen/main.go:227-236 *)
Definition print_marker_docs (ptr : def TablesModel.payload -> nat) (hs : helps) (gs : list TablesModel.generator) (level : nat) : streams :=
  help_for_levels level (by_category range_defs range_fields range_groups shuffle shuffle_fields (which_registry ptr gs) hs sort_by_category).
End Orders.
