(** * Loading the roots: the claims' vocabulary *)

From Coq Require Import String Ascii List Bool Arith.
Import ListNotations.
From Verif Require Import GoLib RootsModel.
Open Scope string_scope.
Open Scope nat_scope.
Open Scope list_scope.

(** A directory: the names from it up to the root of the file system. *)
Definition place := list string.

(** Going from a directory by one element of a path (there are no symbolic links here). *)
Definition go (d : place) (c : string) : place :=
  if String.eqb c "" || String.eqb c "." then d
  else if String.eqb c ".." then tl d
  else c :: d.
(** Where a path leads from a directory. *)
Definition leads (from : place) (path : string) : place := fold_left go (parts path) (if is_abs path then [] else from).

(** What a root in a file system is about: "..." in a directory, or that directory. *)
Definition about (p : place) : place * string :=
  match p with
  | c :: d => if String.eqb c "..." then (d, "./...") else (p, "./.")
  | [] => (p, "./.")
  end.

(** A call of packages.Load with one pattern, seen from the working directory. *)
Definition called (wd : place) (c : call) : option (place * string) :=
  match snd c with [r] => Some (leads wd (fst c), r) | _ => None end.

(** The directories of the go.mod files among what WalkDir comes to. *)
Definition modules (wd : place) (entries : list (string * bool)) : list (place * string) :=
  flat_map (fun e : string * bool =>
              if snd e then []
              else match leads wd (fst e) with
                   | c :: d => if String.eqb c "go.mod" then [(d, "./...")] else []
                   | [] => []
                   end) entries.

(** A root that is about files: absolute, or with a "." at the beginning. *)
Definition file_root (r : string) : Prop := exists s, r = String "/" s \/ r = String "." s.
(** The roots in two lists. *)
Inductive splits : list string -> list string -> list string -> Prop :=
| splits_nil : splits [] [] []
| splits_file r rs fs ps : file_root r -> splits rs fs ps -> splits (r :: rs) (r :: fs) ps
| splits_package r rs fs ps : ~ file_root r -> splits rs fs ps -> splits (r :: rs) fs (r :: ps).

(** The first package of each ID. *)
Fixpoint firsts (l : list pkg) : list pkg :=
  match l with
  | [] => []
  | p :: l' => p :: filter (fun q => negb (String.eqb (p_id q) (p_id p))) (firsts l')
  end.
