(** * Imports of the generated DeepCopy code

    Model of importsList, pkg/deepcopy/traverse.go:82-156.

    A path or identifier is a list of Unicode code points (Go: a string that is
    valid UTF-8; other strings are not modelled).  Which code points are letters
    and digits is left to the oracles [letter] and [digit] (unicode.IsLetter,
    unicode.IsDigit). *)

From Coq Require Import String Ascii List Bool Arith.
Import ListNotations.
From Verif Require Import GoLib.
Open Scope string_scope.
Open Scope nat_scope.
Open Scope list_scope.

Definition word := list nat.

(** A string of ASCII characters as a word. No Go counterpart: literals such as that of pkg/deepcopy/traverse.go:96. *)
Definition w (s : string) : word := map nat_of_ascii (list_ascii_of_string s).

(** Comparison of strings, as by the maps of pkg/deepcopy/traverse.go:84-89 *)
Fixpoint word_eqb (a b : word) : bool :=
  match a, b with
  | [], [] => true
  | x :: a', y :: b' => Nat.eqb x y && word_eqb a' b'
  | _, _ => false
  end.

(** The separator of path.Split, pkg/deepcopy/traverse.go:107 *)
Definition slash : nat := 47.
(** pkg/deepcopy/traverse.go:123 *)
Definition underscore : nat := 95.
(** pkg/deepcopy/traverse.go:113-119 *)
Definition letter_x : nat := 120.

(** path.Split: the part up to and including the last slash, and the rest. Called at pkg/deepcopy/traverse.go:107 and
    :131. *)
Fixpoint path_split (p : word) : word * word :=
  match p with
  | [] => ([], [])
  | c :: r =>
      let (d, f) := path_split r in
      match d with
      | [] => if Nat.eqb c slash then ([c], f) else ([], c :: f)
      | _ => (c :: d, f)
      end
  end.

(** Below strings.LastIndex, pkg/deepcopy/traverse.go:96 *)
Fixpoint prefix (a b : word) : bool :=
  match a, b with
  | [], _ => true
  | x :: a', y :: b' => Nat.eqb x y && prefix a' b'
  | _, [] => false
  end.

(** What follows the last "/vendor/", if there is one; traverse.go:96-98. *)
Fixpoint after_vendor (p : word) : option word :=
  match p with
  | [] => None
  | c :: r =>
      match after_vendor r with
      | Some x => Some x
      | None => if prefix (w "/vendor/") p then Some (skipn 8 p) else None
      end
  end.
(** pkg/deepcopy/traverse.go:96-98 *)
Definition no_vendor (p : word) : word :=
  match after_vendor p with Some x => x | None => p end.

(** importsList, traverse.go:84-89. *)
Record imports := mkimports { by_path : list (word * word); by_alias : list (word * word) }.

(** pkg/deepcopy/gen.go:210-217: nothing yet, but the name of the package itself is taken. *)
Definition no_imports (root : word) : imports := mkimports [] [(root, [])].

Section Import.
Variable letter digit : nat -> bool.

(** traverse.go:117-119. *)
Fixpoint skip_digits (s : word) : word :=
  match s with
  | c :: r => if digit c then skip_digits r else s
  | [] => []
  end.

(** traverse.go:122-127. *)
Definition clean (s : word) : word :=
  map (fun c => if letter c || digit c || Nat.eqb c underscore then c else underscore) s.

(** The loop of NeedImport, traverse.go:109-133; [rest], [next] and [alias] are the
    variables restPath, nextWord and alias.  The first round is always entered
    (otherPath is "" there). *)
Fixpoint pick (n : nat) (aliases : list (word * word)) (path rest next alias : word) : option word :=
  match n with
  | 0 => None
  | S n' =>
      let alias1 := match rest with [] => alias ++ [letter_x] | _ => alias end in
      let next1 := clean (skip_digits next) in
      let alias2 := next1 ++ alias1 in
      let rn := match rest with
                | [] => (rest, next1)
                | _ => path_split (removelast rest)
                end in
      match mget word_eqb aliases alias2 with
      | Some other => if word_eqb other path then Some alias2
                      else pick n' aliases path (fst rn) (snd rn) alias2
      | None => Some alias2
      end
  end.

(** NeedImport, traverse.go:93-138.  [n] bounds the rounds of the loop. *)
Definition need_import (n : nat) (l : imports) (path0 : word) : option (imports * word) :=
  let path := no_vendor path0 in
  match mget word_eqb (by_path l) path with
  | Some alias => Some (l, alias)
  | None =>
      let store (alias : word) :=
        (mkimports (mset word_eqb (by_path l) path alias)
                   (mset word_eqb (by_alias l) alias path), alias) in
      match path with
      | [] => Some (store [])       (* the loop is not entered *)
      | _ =>
          let (rest, next) := path_split path in
          match pick n (by_alias l) path rest next [] with
          | Some alias => Some (store alias)
          | None => None
          end
      end
  end.

(** A sequence of requests. Calls of NeedImport, pkg/deepcopy/traverse.go:95-141, as pkg/deepcopy/traverse.go:161-207
    makes them. *)
Fixpoint need_imports (n : nat) (l : imports) (ps : list word) : option (imports * list word) :=
  match ps with
  | [] => Some (l, [])
  | p :: ps' =>
      match need_import n l p with
      | Some (l1, a) =>
          match need_imports n l1 ps' with
          | Some (l2, r) => Some (l2, a :: r)
          | None => None
          end
      | None => None
      end
  end.
End Import.

(** ImportSpecs, traverse.go:143-156: for each import its path, and the alias if it
    is written.  [name_of] gives the name of a package imported by the root,
    [order] is the order of iteration over byPath. *)
Definition import_specs (name_of : word -> option word)
    (order : list (word * word) -> list (word * word)) (l : imports) : list (option word * word) :=
  map (fun pa => match name_of (fst pa) with
                 | Some n => if word_eqb n (snd pa) then (None, fst pa) else (Some (snd pa), fst pa)
                 | None => (Some (snd pa), fst pa)
                 end) (order (by_path l)).
