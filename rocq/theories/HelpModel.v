(** * The help: pkg/genall/help sort.go and types.go, pkg/markers/help.go, and what main prints of it. Definitions only.

    A definition is that of RegistryModel with, as payload, its pointer and the fields of ParseModel (argument name, field of the Go type,
    type, whether optional).  The order in which Go ranges over maps, and the order in which sort.Slice leaves what compares as equal,
    are given: every sort is the stable one after some permutation.

    Not modelled: the encoding as JSON.  The layout of the printed text is in PrettyModel. *)

From Coq Require Import List String Ascii Bool Arith.
From Verif Require Import GoLib RegistryModel ParseModel.
Import ListNotations.
Open Scope string_scope.
Open Scope list_scope.

(** DetailedHelp, pkg/markers/help.go:25-28 and pkg/genall/help/types.go:28-33 *)
Record detail := mkDetail { summary : string; details : string }.
(** Its zero value, pkg/markers/help.go:25-28 *)
Definition detail0 : detail := mkDetail "" "".
(** DefinitionHelp, pkg/markers/help.go:32-50 *)
Record dhelp := mkDHelp { h_detail : detail; h_category : string; h_deprecated : option string; h_fields : list (string * detail) }.
(** Its zero value, pkg/genall/help/types.go:147 *)
Definition dhelp0 : dhelp := mkDHelp detail0 "" None [].

(** *Definition, pkg/markers/parse.go:710-728 *)
Record payload := mkPayload { p_pointer : nat; p_defn : ParseModel.definition }.
(** pkg/markers/parse.go:710-728 *)
Notation hdef := (RegistryModel.def payload).
(** r.helpFor, pkg/markers/reg.go:30 *)
Notation helps := (list (nat * dhelp)).

(** FieldsHelp, pkg/markers/help.go:54-60 *)
Definition fields_help (h : dhelp) (d : ParseModel.definition) : list (string * detail) :=
  map (fun x => (fst x, match mget String.eqb (h_fields h) (f_name (snd x)) with Some t => t | None => detail0 end)) (d_fields d).

(** Argument, pkg/genall/help/types.go:36-43 *)
Inductive hargument := mkHArgument (a_type : string) (a_optional : bool) (a_item : option hargument).

(** ForArgument, pkg/genall/help/types.go:111-142; an item is optional if it is a pointer (pkg/markers/parse.go:645-649) *)
Fixpoint for_argument (a : arg) (optional : bool) : hargument :=
  match a with
  | AInt _ => mkHArgument "int" optional None
  | AStr => mkHArgument "string" optional None
  | ABool => mkHArgument "bool" optional None
  | AAny => mkHArgument "any" optional None
  | ARaw => mkHArgument "raw" optional None
  | AInvalid => mkHArgument "invalid" optional None
  | ANum => mkHArgument "" optional None
  | ASlice b => mkHArgument "slice" optional (Some (for_argument b (match b with APtr _ => true | _ => false end)))
  | AMap b => mkHArgument "" optional (Some (for_argument b (match b with APtr _ => true | _ => false end)))
  | APtr b => for_argument b optional
  end.

(** TypeString, pkg/genall/help/types.go:45-65; [None]: the item of a slice is nil *)
Fixpoint type_string (a : hargument) : option string :=
  match a with
  | mkHArgument t _ item =>
      if String.eqb t "slice"
      then match item with Some b => option_map (append "[]") (type_string b) | None => None end
      else Some t
  end.

(** FieldHelp, pkg/genall/help/types.go:68-76 *)
Record field_doc := mkFieldDoc { fd_name : string; fd_argument : hargument; fd_detail : detail }.
(** MarkerDoc, pkg/genall/help/types.go:79-98 *)
Record marker_doc := mkMarkerDoc {
  md_name : string; md_target : string; md_detail : detail; md_category : string; md_deprecated : option string; md_fields : list field_doc }.
(** CategoryDoc, pkg/genall/help/types.go:181-184 *)
Record category_doc := mkCategoryDoc { cd_category : string; cd_markers : list marker_doc }.

(** TargetType.String, pkg/markers/parse.go:696-707 *)
Definition target_string (t : target) : string :=
  match t with DescribesPackage => "package" | DescribesType => "type" | DescribesField => "field" end.

(** SortGroup, pkg/genall/help/sort.go:26-31 *)
Record sort_group := mkSortGroup { sg_less : string -> string -> bool; sg_group : string -> option dhelp -> string }.

(** sortByCategory, pkg/genall/help/sort.go:41-51 *)
Definition sort_by_category : sort_group :=
  mkSortGroup str_ltb (fun _ h => match h with None => "" | Some x => h_category x end).

(** pkg/genall/help/sort.go:59-83 *)
Definition option_key (name : string) : string * string :=
  match split_char ":" name with
  | [g] => (g, "")
  | [_; r] => ("", r)
  | [_; g; r] => (g, r)
  | _ => ("", "")
  end.
(** optionsSort.Less, pkg/genall/help/sort.go:55-90 *)
Definition option_less (i j : string) : bool :=
  let '(ig, ir) := option_key i in
  let '(jg, jr) := option_key j in
  if negb (String.eqb ig jg) then str_ltb jg ig else str_ltb ir jr.
(** optionsSort.Group, pkg/genall/help/sort.go:91-106 *)
Definition option_group (name : string) : string :=
  match split_char ":" name with
  | [p] => if String.eqb p "paths" then "generic" else "generators"
  | [_; _] => "output rules (optionally as output:<generator>:...)"
  | _ => ""
  end.
(** optionsSort, pkg/genall/help/sort.go:53 *)
Definition sort_by_option : sort_group := mkSortGroup option_less (fun n _ => option_group n).

Section Orders.
(** The order of ranging over a map of definitions, of fields, of groups; and what sort.Slice does to equals. *)
Variable range_defs : list (string * hdef) -> list (string * hdef).
Variable range_fields : list (string * detail) -> list (string * detail).
Variable range_groups : list (string * list hdef) -> list (string * list hdef).
Variable shuffle : list hdef -> list hdef.
Variable shuffle_fields : list field_doc -> list field_doc.

(** AllDefinitions, pkg/markers/reg.go:126-138 *)
Definition all_definitions (r : registry payload) : list hdef :=
  map snd (range_defs (for_pkg _ r)) ++ map snd (range_defs (for_type _ r)) ++ map snd (range_defs (for_field _ r)).

(** ForDefinition, pkg/genall/help/types.go:145-178 *)
Definition for_definition (d : hdef) (maybe : option dhelp) : marker_doc :=
  let h := match maybe with Some h => h | None => dhelp0 end in
  let fields := map (fun x =>
      mkFieldDoc (fst x)
        (match mget String.eqb (d_fields (p_defn (d_payload d))) (fst x) with Some f => for_argument (f_arg f) (f_optional f) | None => for_argument AInvalid false end)
        (snd x))
    (range_fields (fields_help h (p_defn (d_payload d)))) in
  mkMarkerDoc (d_name d) (target_string (d_target d)) (h_detail h) (h_category h) (h_deprecated h)
    (sort_by (fun a b => str_ltb (fd_name a) (fd_name b)) (shuffle_fields fields)).

(** HelpFor, pkg/markers/reg.go:116-123 *)
Definition help_for (hs : helps) (d : hdef) : option dhelp := mget Nat.eqb hs (p_pointer (d_payload d)).

(** ByCategory, pkg/genall/help/types.go:188-215 *)
Definition by_category (r : registry payload) (hs : helps) (s : sort_group) : list category_doc :=
  let grouped := fold_left (fun m d => mapp String.eqb m (sg_group s (d_name d) (help_for hs d)) d) (all_definitions r) [] in
  map (fun g =>
      let markers := match mget String.eqb grouped g with Some l => l | None => [] end in
      mkCategoryDoc g (map (fun d => for_definition d (help_for hs d)) (sort_by (fun a b => sg_less s (d_name a) (d_name b)) (shuffle markers))))
    (sort_strings (map fst (range_groups grouped))).
End Orders.

(** What is printed at levels 1 to 3, cmd/controller-gen/main.go:246-267 *)
Definition printed (l : list category_doc) : list category_doc := filter (fun c => negb (String.eqb (cd_category c) "")) l.

(** main's registration of the options, cmd/controller-gen/main.go:78-120: for each generator its name and its output rules, then the
    rules, then the common options (pkg/genall/options.go:33-42). Both ranged over in any order. *)
Definition option_names (generators rules common : list string) : list string :=
  flat_map (fun g => g :: map (fun r => "output:" ++ g ++ ":" ++ r)%string rules) generators ++
  map (fun r => "output:" ++ r)%string rules ++ common.
