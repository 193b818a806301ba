(** * The markers of a package are collected once: MarkersInPackage

    Model of MarkersInPackage, pkg/markers/collect.go:75-97, as used by PackageMarkers (pkg/markers/zip.go:123-137) and EachType
    (zip.go:191-234), for goroutines that share a collector and a package.

    Each step is one access to what is shared: the fields of the collector under its lock, pkg.Syntax without one.  What a package
    contains is given: the values of the markers of its nodes (files, types, fields), which CollectModel computes.  A node is a
    pointer: parsing again gives other nodes, so a node is a generation and a number.

    Simplifications: one package, as the entries of different packages have nothing to do with each other; NeedSyntax without
    its goroutines and errors (SyntaxModel has them); nodes without markers are as nodes with none. *)

From Coq Require Import List Bool Arith.
Import ListNotations.
From Verif Require Import GoLib.

(** ast.Node, pkg/markers/collect.go:33: the how-manieth parse made it, and its number in the package. *)
Definition anode := (nat * nat)%type.
(** Equality of pointers, pkg/markers/zip.go:131. *)
Definition anode_eqb (a b : anode) : bool := Nat.eqb (fst a) (fst b) && Nat.eqb (snd a) (snd b).

Section Cache.
(** MarkerValues, collect.go:38-39. *)
Variable V : Type.
(** What the package contains: the values for each node. *)
Variable content : list V.
(** Whether its files can be parsed, and whether its markers can. *)
Variable parses valid : bool.

(** map[ast.Node]MarkerValues, collect.go:33. *)
Definition table := list (anode * V).

(** c.byPackage[pkg], collect.go:33; pkg.Syntax, pkg/loader/loader.go:131 (which parse made it); the number of parses so far; and how
    often the markers have been collected. *)
Record shared := mkShared { cached : option table; syntax : option nat; parsed : nat; work : nat }.

(** What a caller gets: an error, or, for each node of pkg.Syntax, what the table has for it; zip.go:129-134 and 199-220. *)
Inductive result := Failed | Found (l : list (option V)).

(** Where a goroutine is, collect.go:75-97: outside; looked up in vain; NeedSyntax found no syntax; has parsed; syntax is there;
    has the values; has a table. *)
Inductive pc := Idle | Missed | Parsing | Parsed (g : nat) | Ready | Collected (t : table) | Got (t : table).

(** associatePkgMarkers and parseMarkersInPackage, collect.go:100-140: an entry for each node of pkg.Syntax; nil is empty. *)
Definition collect (syn : option nat) : table :=
  match syn with
  | None => []
  | Some g => combine (map (pair g) (seq 0 (length content))) content
  end.

(** zip.go:129-134 and 199-220: looks up each node of pkg.Syntax. *)
Definition look_up (t : table) (syn : option nat) : list (option V) :=
  match syn with
  | None => []
  | Some g => map (fun i => mget anode_eqb t (g, i)) (seq 0 (length content))
  end.

(** One step of a goroutine, pkg/markers/collect.go:75-97; with the result if its call returns with it. *)
Definition run (p : pc) (s : shared) : pc * shared * option result :=
  match p with
  | Idle => (* collect.go:76-83 *)
      match cached s with
      | Some t => (Got t, s, None)
      | None => (Missed, s, None)
      end
  | Missed => (* NeedSyntax, pkg/loader/loader.go:104-106 *)
      match syntax s with
      | Some _ => (Ready, s, None)
      | None => (Parsing, s, None)
      end
  | Parsing => (* loader.go:107-130 *)
      if parses
      then (Parsed (parsed s), mkShared (cached s) (syntax s) (S (parsed s)) (work s), None)
      else (Ready, mkShared (cached s) (syntax s) (S (parsed s)) (work s), None)
  | Parsed g => (* loader.go:131 *)
      (Ready, mkShared (cached s) (Some g) (parsed s) (work s), None)
  | Ready => (* collect.go:86-90 *)
      let s' := mkShared (cached s) (syntax s) (parsed s) (S (work s)) in
      match syntax s with
      | Some g => if valid then (Collected (collect (Some g)), s', None) else (Idle, s', Some Failed)
      | None => (Collected (collect None), s', None)
      end
  | Collected t => (* collect.go:92-95 *)
      (Got t, mkShared (Some t) (syntax s) (parsed s) (work s), None)
  | Got t => (* zip.go:129-136 *)
      (Idle, s, Some (Found (look_up t (syntax s))))
  end.

(** All goroutines, and what their calls have returned, by which one, latest first; collect.go:75. *)
Record state := mkState { sh : shared; pcs : list pc; returned : list (nat * result) }.

(** The goroutine with number [i] makes a step, collect.go:75-97. *)
Definition step (i : nat) (s : state) : state :=
  match nth_error (pcs s) i with
  | None => s
  | Some p =>
      let '(p', h, r) := run p (sh s) in
      mkState h (firstn i (pcs s) ++ p' :: skipn (S i) (pcs s)) (match r with Some x => (i, x) :: returned s | None => returned s end)
  end.

(** A schedule: which goroutine makes a step, collect.go:75-97. *)
Definition steps (l : list nat) (s : state) : state := fold_left (fun s i => step i s) l s.

(** Before the first call, collect.go:52-59; [syn]: whether the package has been parsed before. *)
Definition start (n : nat) (syn : bool) : state :=
  mkState (mkShared None (if syn then Some 0 else None) (if syn then 1 else 0) 0) (repeat Idle n) [].
End Cache.
