(** * The object generator, from the comments of the sources to the files

    Generate, pkg/deepcopy/gen.go:137-164, over all roots: the header, the generator for one package (ObjectModel) with the markers that the
    collector and the registry get from the comments (SourceModel), the top of the file, and writing it. Definitions only.

    A package is as in OriginModel: its files and its type declarations; the fields of the declarations do not matter here. What go/types says of
    the types is given by [decls], [home] and [known_as], for each package.
    Simplified: the text of a file is its top, up to the imports, and then the imports and methods as in ObjectModel; what format.Source does to
    the text is not modelled. Of a failed Write it is not said how much of the text was written. *)
From Coq Require Import List String Ascii Bool QArith.
From Verif Require Import GoLib SchemaModel DeepModel ImportModel RegistryModel CollectModel TablesModel SourceModel OriginModel ManifestModel ObjectModel.
Import ListNotations.
Open Scope string_scope.
Open Scope list_scope.

(** The values of the markers of pkg/deepcopy/gen.go:43-51; others are not looked at. *)
Definition object_value (v : tvalue) : mval := match v with TvBool b => VBool b | TvRaw s => VRaw s | TvText s => VText s | _ => VAny end.
(** MarkerValues, pkg/markers/collect.go:40, as pkg/deepcopy/gen.go:91-135 looks at them *)
Definition object_set (m : SourceModel.mvals) : ObjectModel.mvals := map (fun kv => (fst kv, map object_value (snd kv))) m.

(** The end of a line in a raw string, pkg/deepcopy/gen.go:179-190 *)
Definition newline : string := String "010"%char "".
(** writeHeader, pkg/deepcopy/gen.go:176-194, up to the imports *)
Definition top_text (header name : string) : string :=
  ("//go:build !ignore_autogenerated" ++ newline ++ newline ++ header ++ newline ++ newline ++
   "// Code generated by controller-gen. DO NOT EDIT." ++ newline ++ newline ++ "package " ++ name ++ newline ++ newline)%string.

(** A file that was opened: for which root, its name, its text, and whether all of it was written. pkg/deepcopy/gen.go:281-303 *)
Record output := mkOutput { o_root : string; o_name : string; o_top : string; o_file : ObjectModel.file; o_whole : bool }.
(** The errors added to a root, pkg/deepcopy/gen.go:199-303 *)
Inductive cerr := CGen (e : gerr) | COpen | CWrite.
(** How Generate ends: with an error at the header, with files and the errors of the roots, in a panic, or not within the steps.
    pkg/deepcopy/gen.go:137-164 *)
Inductive cresult := CFailed | CEnded (files : list output) (errs : list (string * cerr)) | CPanics | CRuns.

Section Copies.
  (** As in SourceModel *)
  Variable fval : string -> option Q.
  Variable json_read : string -> option json.
  Variable gs : list generator.
  Variable forder : SourceModel.file -> list (nat * list marker) -> list (nat * list marker).
  Variable vorder : list (string * list tvalue) -> list (string * list tvalue).
  (** As in ObjectModel, for the packages by path *)
  Variable decls : string -> string -> decl.
  Variable exported : string -> bool.
  Variable home : string -> string -> place.
  Variable known_as : string -> string -> ObjectModel.type_of.
  Variable letter digit : nat -> bool.
  Variable steps rounds : nat.
  Variable torder : list (string * written) -> list (string * written).
  Variable porder : list (word * word) -> list (word * word).
  Variable name_of : string -> word -> option word.
  Variable formats : string -> string -> ObjectModel.file -> bool.
  (** ctx.Open and Write succeed: pkg/deepcopy/gen.go:282 and :288 *)
  Variable opens writes : string -> bool.

  (** markers.PackageMarkers, pkg/deepcopy/gen.go:92. None: an error. *)
  Definition package_object_markers (gp : gpackage) : option ObjectModel.mvals :=
    match package_set fval json_read gs forder vorder (gp_files gp) with Some (inl m) => Some (object_set m) | _ => None end.
  (** TypeInfo, pkg/markers/zip.go:222-231, and what TypesInfo has of the name, pkg/deepcopy/traverse.go:622 *)
  Definition object_info (p : string) (gp : gpackage) (d : tdecl) : info :=
    mkInfo (td_name d) (object_set (marks fval json_read gs forder gp (td_node d))) (known_as p (td_name d)).
  (** markers.EachType, pkg/deepcopy/gen.go:219; the error is that of PackageMarkers (the markers of all nodes are read at once,
      pkg/markers/collect.go:75-96). *)
  Definition object_infos (p : string) (gp : gpackage) : option (list info) :=
    match package_set fval json_read gs forder vorder (gp_files gp) with Some (inl _) => Some (map (object_info p gp) (gp_decls gp)) | _ => None end.

  (** generateForPackage and writeOut, pkg/deepcopy/gen.go:155-161, 199-261 and 281-303 *)
  Definition one_root (header : string) (p : string) (gp : gpackage) : run (list output * list (string * cerr)) :=
    let top := top_text header (gp_name gp) in
    bind (generate_for_package (decls p) exported (home p) letter digit steps rounds torder porder (name_of p) (formats p top)
            (w (gp_name gp)) (package_object_markers gp) (object_infos p gp)) (fun r =>
    let '(f, es) := r in
    let es := map (fun e => (p, CGen e)) es in
    match f with
    | None => Done ([], es)
    | Some f =>
        if negb (opens p) then Done ([], es ++ [(p, COpen)])
        else Done ([mkOutput p "zz_generated.deepcopy.go" top f (writes p)], es ++ if writes p then [] else [(p, CWrite)])
    end).

  (** The loop over the roots, pkg/deepcopy/gen.go:154-161 *)
  Fixpoint all_roots (header : string) (roots : list (string * gpackage)) : run (list output * list (string * cerr)) :=
    match roots with
    | [] => Done ([], [])
    | (p, gp) :: roots' =>
        bind (one_root header p gp) (fun r =>
        bind (all_roots header roots') (fun r' => Done (fst r ++ fst r', snd r ++ snd r')))
    end.

  (** Generate, pkg/deepcopy/gen.go:137-164; the header file as in ManifestModel: none, or one that can be read or not. *)
  Definition generate_copies (header_file : option (option string)) (year : string) (roots : list (string * gpackage)) : cresult :=
    match header_text header_file year with
    | None => CFailed
    | Some h =>
        match all_roots h roots with
        | Done (files, errs) => CEnded files errs
        | Panics => CPanics
        | Runs => CRuns
        end
    end.
End Copies.
