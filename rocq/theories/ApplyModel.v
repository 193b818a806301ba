(** * Apply configurations: pkg/applyconfiguration/gen.go. Definitions only.

    What the collector finds in a package is given: its values of the two package markers, and its types with their values of the two type
    markers; [None] if collecting fails.  As it is kept (C51), EachType finds the same as PackageMarkers.  What gengo loads of a package
    is given too, and so is whether its targets fail; they are called with the header, the directory, the import path and the types with
    their comments.  Paths are those of RootsModel.

    Not modelled: gengo and applyconfiguration-gen themselves; the texts of errors. *)

From Coq Require Import List String Ascii Bool Arith.
From Verif Require Import GoLib RootsModel.
Import ListNotations.
Open Scope string_scope.
Open Scope list_scope.

(** markers.TypeInfo, with the values of enableTypeMarker and how many of isCRDMarker; pkg/applyconfiguration/gen.go:43-46 *)
Record tinfo := mkTInfo { t_name : string; t_enable : list bool; t_resource : nat }.
(** What PackageMarkers and EachType give, with the values of enablePkgMarker and outputPkgMarker; pkg/applyconfiguration/gen.go:43-46 *)
Record marks := mkMarks { m_enable : list bool; m_output : list string; m_types : list tinfo }.
(** A type of gengo: Name, CommentLines, SecondClosestCommentLines; pkg/applyconfiguration/gen.go:215-225 *)
Record gtype := mkGType { g_name : string; g_comments : list string; g_second : list string }.
(** A root: Dir, PkgPath, how many GoFiles, the markers, and what gengo makes of it: whether LoadPackages and NewContext succeed, and its
    types, if it is in the universe; pkg/applyconfiguration/gen.go:171-206 *)
Record root := mkRoot {
  r_dir : string; r_path : string; r_files : nat; r_marks : option marks;
  r_load : bool; r_context : bool; r_universe : option (list gtype) }.

(** MarkerValues.Get, pkg/markers/collect.go:43-49 *)
Definition get {A : Type} (l : list A) : option A := match l with v :: _ => Some v | [] => None end.

(** enabledOnPackage, pkg/applyconfiguration/gen.go:84-94; [None]: an error *)
Definition enabled_on_package (r : root) : option bool :=
  match r_marks r with
  | None => None
  | Some m => match get (m_enable m) with Some b => Some b | None => Some false end
  end.
(** isCRD, pkg/applyconfiguration/gen.go:118-121 *)
Definition is_crd (t : tinfo) : bool := negb (Nat.eqb (t_resource t) 0).
(** enabledOnType, pkg/applyconfiguration/gen.go:96-101 *)
Definition enabled_on_type (t : tinfo) : bool := match get (t_enable t) with Some b => b | None => is_crd t end.
(** outputPkg, pkg/applyconfiguration/gen.go:103-116 *)
Definition output_pkg (r : root) : string :=
  match r_marks r with
  | None => "applyconfiguration"
  | Some m => match get (m_output m) with Some s => s | None => "applyconfiguration" end
  end.

(** pkg/applyconfiguration/gen.go:220-225 *)
Definition add_genclient (g : gtype) : gtype :=
  if existsb (String.eqb "// +genclient") (g_comments g ++ g_second g) then g
  else mkGType (g_name g) (g_comments g ++ ["+genclient"]) (g_second g).
(** The callback of EachType, pkg/applyconfiguration/gen.go:210-226 *)
Definition visit (ts : list gtype) (t : tinfo) : list gtype :=
  if enabled_on_type t then map (fun g => if String.eqb (g_name g) (t_name t) then add_genclient g else g) ts else ts.

(** GetTargets and ExecuteTargets: the header file, OutputDir, OutputPkg, the types of the package; pkg/applyconfiguration/gen.go:180-186 and :230-233 *)
Record call := mkCall { c_header : string; c_dir : string; c_pkg : string; c_types : list gtype }.
(** The errors of generateForPackage, pkg/applyconfiguration/gen.go:194-233 *)
Inductive failure := ELoad | EContext | EUniverse | EExecute.

Section Execute.
(** Whether ExecuteTargets fails. *)
Variable fails : call -> bool.

(** generateForPackage, pkg/applyconfiguration/gen.go:171-236: what is executed, and the error *)
Definition for_package (header : string) (r : root) : list call * option failure :=
  match enabled_on_package r with
  | Some true =>
      if Nat.eqb (r_files r) 0 then ([], None)
      else
        let out := output_pkg r in
        if negb (r_load r) then ([], Some ELoad)
        else if negb (r_context r) then ([], Some EContext)
        else match r_universe r with
             | None => ([], Some EUniverse)
             | Some ts =>
                 let infos := match r_marks r with Some m => m_types m | None => [] end in
                 let c := mkCall header (join2 (r_dir r) out) (join2 (r_path r) out) (fold_left visit infos ts) in
                 ([c], if fails c then Some EExecute else None)
             end
  | _ => ([], None)
  end.

(** What happens, pkg/applyconfiguration/gen.go:123-158 *)
Inductive event := Created (file : string) | Executed (c : call) | Removed (file : string).
(** Generate's result, pkg/applyconfiguration/gen.go:123-158 *)
Inductive outcome := Good | NoTemp | NoClose | Bad (errs : list failure).

(** The loop over the roots, pkg/applyconfiguration/gen.go:146-151 *)
Fixpoint for_roots (header : string) (rs : list root) : list call * list failure :=
  match rs with
  | [] => ([], [])
  | r :: rs' =>
      let '(c, e) := for_package header r in
      let '(cs, es) := for_roots header rs' in
      (c ++ cs, match e with Some x => x :: es | None => es end)
  end.

(** Generate, pkg/applyconfiguration/gen.go:123-158. The name that CreateTemp chooses, or [None], and whether Close succeeds, are given. *)
Definition generate (header_file : string) (temp : option string) (close : bool) (rs : list root) : list event * outcome :=
  let run header := let '(cs, es) := for_roots header rs in (map Executed cs, match es with [] => Good | _ => Bad es end) in
  if String.eqb header_file ""
  then match temp with
       | None => ([], NoTemp)
       | Some f =>
           if close then let '(evs, o) := run f in (Created f :: evs ++ [Removed f], o)
           else ([Created f], NoClose)
       end
  else run header_file.
End Execute.
