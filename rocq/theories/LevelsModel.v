(** * What is printed of the help, by level: helpForLevels of cmd/controller-gen, and the JSON of the help. Definitions only.

    What encoding/json makes of a struct is modelled as a JSON value: the members in the order of the fields, those of embedded structs
    (without a name in their tag) in their place, and those with omitempty left out if zero.  Slices that ByCategory and ForDefinition make
    are never nil, and so never null.

    Not modelled: the text of a JSON value, errors of the writers. *)

From Coq Require Import List String Ascii Bool Arith.
From Verif Require Import GoLib HelpModel PrettyModel.
From Verif Require Import SchemaModel.
Import ListNotations.
Open Scope string_scope.
Open Scope list_scope.

(** DetailedHelp, pkg/genall/help/types.go:27-32 *)
Definition detail_members (d : detail) : list (string * json) :=
  ("summary", JStr (HelpModel.summary d)) :: (if String.eqb (details d) "" then [] else [("details", JStr (details d))]).
(** Argument, pkg/genall/help/types.go:35-42 *)
Fixpoint argument_members (a : hargument) : list (string * json) :=
  match a with
  | mkHArgument t o item =>
      [("type", JStr t); ("optional", JBool o)] ++ match item with Some b => [("itemType", JObj (argument_members b))] | None => [] end
  end.
(** FieldHelp, pkg/genall/help/types.go:67-75 *)
Definition field_json (f : field_doc) : json :=
  JObj ([("name", JStr (fd_name f))] ++ argument_members (fd_argument f) ++ detail_members (fd_detail f)).
(** MarkerDoc, pkg/genall/help/types.go:78-96 *)
Definition marker_json (m : marker_doc) : json :=
  JObj ([("name", JStr (md_name m)); ("target", JStr (md_target m))] ++ detail_members (md_detail m) ++
        [("category", JStr (md_category m))] ++
        (match md_deprecated m with Some u => [("deprecatedInFavorOf", JStr u)] | None => [] end) ++
        (match md_fields m with [] => [] | fs => [("fields", JArr (map field_json fs))] end)).
(** CategoryDoc, pkg/genall/help/types.go:174-178 *)
Definition category_json (c : category_doc) : json :=
  JObj [("category", JStr (cd_category c)); ("markers", JArr (map marker_json (cd_markers c)))].

(** What goes to the standard output, a JSON value, and to the standard error, spans: cmd/controller-gen/main.go:238 *)
Record streams := mkStreams { to_out : option json; to_err : list span }.

(** helpForLevels, cmd/controller-gen/main.go:238-268, with the result of ByCategory; the levels are those of main.go:270-276 *)
Definition help_for_levels (level : nat) (info : list category_doc) : streams :=
  match level with
  | 4 => mkStreams (Some (JArr (map category_json info))) []
  | 1 => mkStreams None (map (fun c => markers_summary (cd_category c) (cd_markers c)) (printed info))
  | 2 | 3 => mkStreams None (map (fun c => markers_details (Nat.eqb level 3) (cd_category c) (cd_markers c)) (printed info))
  | _ => mkStreams None []
  end.
