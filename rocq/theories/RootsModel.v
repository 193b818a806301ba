(** * Loading the roots

    Model of LoadRootsWithConfig, pkg/loader/loader.go:368-604, but for the deferred calls of visitImports (C32) and the
    settings of the config other than Dir.

    path/filepath is as documented, for systems with "/" as separator.  packages.Load, os.Getwd and filepath.WalkDir are
    oracles; that of packages.Load is told which call it is.  The texts of errors are left out. *)

From Coq Require Import String Ascii List Bool Arith.
Import ListNotations.
From Verif Require Import GoLib.
Open Scope string_scope.
Open Scope nat_scope.
Open Scope list_scope.

(** ** path/filepath *)

Definition slash : ascii := "/"%char.
(** No call in /repo: the elements of a path, below the functions that pkg/loader/loader.go:520-600 calls *)
Definition parts (s : string) : list string := split_char slash s.

(** filepath.IsAbs. Called at pkg/loader/loader.go:450 and :525. *)
Definition is_abs (s : string) : bool := match s with String c _ => Ascii.eqb c slash | EmptyString => false end.

(** filepath.Clean: one element after the other, the last of those before first. Called at pkg/loader/loader.go:522. *)
Definition clean_step (rooted : bool) (st : list string) (c : string) : list string :=
  if String.eqb c "" || String.eqb c "." then st
  else if String.eqb c ".." then
    match st with
    | [] => if rooted then [] else [".."]
    | t :: st' => if String.eqb t ".." then ".." :: st else st'
    end
  else c :: st.
(** Called at pkg/loader/loader.go:522 *)
Definition render (rooted : bool) (st : list string) : string :=
  if rooted then ("/" ++ join "/" (rev st))%string
  else match st with [] => "." | _ => join "/" (rev st) end.
(** Called at pkg/loader/loader.go:522 *)
Definition clean (s : string) : string := render (is_abs s) (fold_left (clean_step (is_abs s)) (parts s) []).

(** filepath.Join, of two: empty elements are ignored. Called at pkg/loader/loader.go:502 and :531. *)
Definition join2 (a b : string) : string :=
  match a, b with
  | EmptyString, EmptyString => ""
  | EmptyString, _ => clean b
  | _, EmptyString => clean a
  | _, _ => clean (a ++ "/" ++ b)%string
  end.

(** filepath.Base: the last element that is not empty. Called at pkg/loader/loader.go:501, :544 and :572. *)
Definition base (s : string) : string :=
  if String.eqb s "" then "."
  else match rev (filter (fun c => negb (String.eqb c "")) (parts s)) with [] => "/" | c :: _ => c end.

(** filepath.Dir: what is before the last separator, cleaned. Called at pkg/loader/loader.go:502, :544 and :572. *)
Definition dir (s : string) : string := clean (join "/" (removelast (parts s) ++ [""])).

(** ** LoadRootsWithConfig *)

(** Of a packages.Package. golang.org/x/tools/go/packages; pkg/loader/loader.go:419-425. *)
Record pkg := mkPkg { p_obj : nat; p_id : string }.

(** A call of packages.Load: cfg.Dir and the patterns. The calls of packages.Load in pkg/loader/loader.go:410. *)
Definition call := (string * list string)%type.

Section Roots.
Variable load : nat -> call -> option (list pkg).
(** os.Getwd, in filepath.Abs. *)
Variable getwd : option string.
(** filepath.WalkDir: the paths it comes to, and whether they are directories; None: an error. *)
Variable walk : string -> option (list (string * bool)).

(** cfg.Dir, uniquePkgIDs, l.Roots, the calls made. pkg/loader/loader.go:368-439. *)
Record lstate := mkL { l_dir : string; l_ids : list string; l_roots : list pkg; l_calls : list call }.

(** loader.go:418-426 *)
Fixpoint add_new (ps : list pkg) (ids : list string) : list pkg * list string :=
  match ps with
  | [] => ([], ids)
  | p :: ps' =>
      if existsb (String.eqb (p_id p)) ids then add_new ps' ids
      else let '(r, ids') := add_new ps' (p_id p :: ids) in (p :: r, ids')
  end.

(** loadPackages and what follows its calls: loader.go:409-427, 431-435, 462-466, 596-600.  The state after an error is returned as well. *)
Definition load_packages (roots : list string) (s : lstate) : lstate * bool :=
  let c := (l_dir s, roots) in
  match load (List.length (l_calls s)) c with
  | None => (mkL (l_dir s) (l_ids s) (l_roots s) (l_calls s ++ [c]), false)
  | Some ps =>
      let '(new, ids) := add_new ps (l_ids s) in
      (mkL (l_dir s) ids (l_roots s ++ new) (l_calls s ++ [c]), true)
  end.

(** loader.go:447-455: begins with "." or is absolute. *)
Definition is_fs (r : string) : bool :=
  is_abs r || match r with String c _ => Ascii.eqb c "."%char | EmptyString => false end.

(** loader.go:521-539: the absolute path of a root. *)
Definition absolute (cfg_dir r : string) : option string :=
  let r := clean r in
  if is_abs r then Some r
  else if negb (String.eqb cfg_dir "") then Some (join2 cfg_dir r)
  else match getwd with Some d => Some (join2 d r) | None => None end.

(** addNestedGoModulesToRoots, loader.go:494-505 *)
Definition nested (entries : list (string * bool)) : list string :=
  flat_map (fun e : string * bool => if negb (snd e) && String.eqb (base (fst e)) "go.mod" then [join2 (dir (fst e)) "..."] else []) entries.

(** loader.go:518-558: the roots as absolute paths, and those added at the end.  The loop runs over the roots that there are when
    it starts. *)
Fixpoint first_pass (cfg_dir : string) (rs : list string) : option (list string * list string) :=
  match rs with
  | [] => Some ([], [])
  | r :: rs' =>
      match absolute cfg_dir r with
      | None => None
      | Some a =>
          match (if String.eqb (base a) "..." then
                   match walk (dir a) with Some es => Some (nested es) | None => None end
                 else Some []) with
          | None => None
          | Some new =>
              match first_pass cfg_dir rs' with
              | None => None
              | Some (as_, added) => Some (a :: as_, new ++ added)
              end
          end
      end
  end.

(** loader.go:571-601 *)
Fixpoint second_pass (rs : list string) (s : lstate) : lstate * bool :=
  match rs with
  | [] => (s, true)
  | r :: rs' =>
      let '(d, b) := if String.eqb (base r) "..." then (dir r, base r) else (r, ".") in
      let '(s1, ok) := load_packages ["./" ++ b]%string (mkL d (l_ids s) (l_roots s) (l_calls s)) in
      if ok then second_pass rs' s1 else (s1, false)
  end.

(** What the caller sees: the roots or an error; cfg.Dir; and the calls. What pkg/loader/loader.go:368-608 returns
    and leaves behind. *)
Record result := mkResult { r_roots : option (list pkg); r_dir : string; r_calls : list call }.
(** What pkg/loader/loader.go:368-608 returns and leaves behind *)
Definition finish (sb : lstate * bool) : result :=
  mkResult (if snd sb then Some (l_roots (fst sb)) else None) (l_dir (fst sb)) (l_calls (fst sb)).

(** loader.go:368-604 *)
Definition load_roots (cfg_dir : string) (roots : list string) : result :=
  let s0 := mkL cfg_dir [] [] [] in
  match roots with
  | [] => finish (load_packages [] s0)
  | _ =>
      let fs := filter is_fs roots in
      let pk := filter (fun r => negb (is_fs r)) roots in
      let '(s1, ok) := match pk with [] => (s0, true) | _ => load_packages pk s0 end in
      if negb ok then finish (s1, false)
      else
        match fs with
        | [] => finish (s1, true)
        | _ =>
            (* the deferred function of loader.go:482-484 *)
            let restore (r : result) := mkResult (r_roots r) cfg_dir (r_calls r) in
            match first_pass cfg_dir fs with
            | None => restore (finish (s1, false))
            | Some (as_, added) => restore (finish (second_pass (as_ ++ added) s1))
            end
        end
  end.
End Roots.
