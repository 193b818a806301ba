(** * Parsing the files of a package

    Model of Package.NeedSyntax, pkg/loader/loader.go:103-132, with the part of AddError that it runs in its goroutines:
    p.Errors = append(p.Errors, ...), loader.go:135-182, which takes no lock.

    A state is the caller and the goroutines with their program counters, and what they share: out, the counter of the
    WaitGroup, p.Syntax, and p.Errors with the arrays that hold its elements.  [exec None] lets the caller make one step,
    [exec (Some i)] the i-th goroutine.  A schedule is a list of those.

    Simplifications: reading and parsing a file is one step, and the oracle [parse] says how it ends: with a syntax tree
    or with the entries that AddError appends for the error (ErrorsModel.add_error); the file set is locked by go/token.
    Steps are executed one after the other and the slice header of p.Errors is read and written as a whole: Go gives no
    guarantees for data races, so that even less may hold than is proved here. *)

From Coq Require Import List Bool Arith.
Import ListNotations.
Open Scope nat_scope.
Open Scope list_scope.

(** Go: a slice that begins at the start of its array, as p.Errors does: the array and the length; loader.go:137-181. *)
Record slice := mkSlice { sl_array : nat; sl_len : nat }.

(** Assignment to an element, loader.go:118, and of append (loader.go:139) to a free slot. *)
Fixpoint set_nth {A} (i : nat) (x : A) (l : list A) : list A :=
  match i, l with
  | _, [] => []
  | 0, _ :: l' => x :: l'
  | S i', y :: l' => y :: set_nth i' x l'
  end.

Section Syntax.
Variables Name F E : Type.
Variable parse : Name -> F + list E.
(** How much more than needed append allocates when the array is full. *)
Variable grow : nat -> nat.
(** p.CompiledGoFiles *)
Variable files : list Name.

(** The arrays of loader.go:137; a slot that was not written holds the zero value, None. *)
Definition heap := list (list (option E)).

(** Go: append(s, e), as called at loader.go:139-180.  The array is its own capacity. *)
Definition append (h : heap) (s : slice) (e : E) : heap * slice :=
  let a := nth (sl_array s) h [] in
  if Nat.ltb (sl_len s) (length a)
  then (set_nth (sl_array s) (set_nth (sl_len s) (Some e) a) h, mkSlice (sl_array s) (S (sl_len s)))
  else (h ++ [firstn (sl_len s) a ++ Some e :: repeat None (grow (sl_len s))], mkSlice (length h) (S (sl_len s))).

(** Where a goroutine of loader.go:111-123 is. *)
Inductive gpc :=
| Parse                               (* loader.go:113-118 *)
| Add (es : list E)                   (* loader.go:115 and 120, the entries left: about to read p.Errors *)
| Append (s : slice) (e : E) (es : list E)   (* p.Errors was read, append is about to be called *)
| Store (s : slice) (es : list E)     (* append has returned, p.Errors is about to be written *)
| Done                                (* loader.go:112, deferred *)
| Exit.

(** Where the caller is. *)
Inductive mpc :=
| Begin                               (* loader.go:104-109 *)
| Spawn (i : nat)                     (* loader.go:110-124 *)
| Wait                                (* loader.go:125 *)
| Check                               (* loader.go:126-131 *)
| Returned.

(** What loader.go:103-132 shares. *)
Record state := mkState {
  s_heap : heap;
  s_errors : slice;                   (* p.Errors *)
  s_out : list (option F);            (* out *)
  s_wg : nat;                         (* wg *)
  s_syntax : option (list F);         (* p.Syntax *)
  s_go : list gpc;
  s_main : mpc }.

(** The loop of loader.go:126-130: all of out, or nothing. *)
Fixpoint all_files (l : list (option F)) : option (list F) :=
  match l with
  | [] => Some []
  | None :: _ => None
  | Some f :: l' => match all_files l' with Some r => Some (f :: r) | None => None end
  end.

(** One step of the caller, loader.go:103-132. *)
Definition main_step (s : state) : option state :=
  match s_main s with
  | Begin =>
      match s_syntax s with
      | Some _ => Some (mkState (s_heap s) (s_errors s) (s_out s) (s_wg s) (s_syntax s) (s_go s) Returned)
      | None => Some (mkState (s_heap s) (s_errors s) (repeat None (length files)) (length files) None [] (Spawn 0))
      end
  | Spawn i =>
      if Nat.ltb i (length files)
      then Some (mkState (s_heap s) (s_errors s) (s_out s) (s_wg s) (s_syntax s) (s_go s ++ [Parse]) (Spawn (S i)))
      else Some (mkState (s_heap s) (s_errors s) (s_out s) (s_wg s) (s_syntax s) (s_go s) Wait)
  | Wait =>
      match s_wg s with
      | 0 => Some (mkState (s_heap s) (s_errors s) (s_out s) (s_wg s) (s_syntax s) (s_go s) Check)
      | S _ => None
      end
  | Check =>
      Some (mkState (s_heap s) (s_errors s) (s_out s) (s_wg s)
                    (match all_files (s_out s) with Some l => Some l | None => s_syntax s end) (s_go s) Returned)
  | Returned => None
  end.

(** One step of the goroutine for the i-th file, loader.go:111-123. *)
Definition go_step (i : nat) (s : state) : option state :=
  let goto c h e o := Some (mkState h e o (s_wg s) (s_syntax s) (set_nth i c (s_go s)) (s_main s)) in
  match nth_error (s_go s) i, nth_error files i with
  | Some Parse, Some f =>
      match parse f with
      | inl t => goto Done (s_heap s) (s_errors s) (set_nth i (Some t) (s_out s))
      | inr es => goto (Add es) (s_heap s) (s_errors s) (s_out s)
      end
  | Some (Add []), _ => goto Done (s_heap s) (s_errors s) (s_out s)
  | Some (Add (e :: es)), _ => goto (Append (s_errors s) e es) (s_heap s) (s_errors s) (s_out s)
  | Some (Append l e es), _ => let (h, l') := append (s_heap s) l e in goto (Store l' es) h (s_errors s) (s_out s)
  | Some (Store l es), _ => goto (Add es) (s_heap s) l (s_out s)
  | Some Done, _ =>
      Some (mkState (s_heap s) (s_errors s) (s_out s) (pred (s_wg s)) (s_syntax s) (set_nth i Exit (s_go s)) (s_main s))
  | _, _ => None
  end.

(** A step of loader.go:103-132. *)
Definition exec (w : option nat) (s : state) : option state :=
  match w with None => main_step s | Some i => go_step i s end.

(** The state after a schedule of loader.go:103-132; None if one of its steps is not possible. *)
Fixpoint runs (sched : list (option nat)) (s : state) : option state :=
  match sched with
  | [] => Some s
  | w :: r => match exec w s with Some s' => runs r s' | None => None end
  end.

(** A call of NeedSyntax, loader.go:103. *)
Definition call (h : heap) (e : slice) (syn : option (list F)) : state := mkState h e [] 0 syn [] Begin.

(** The entries of p.Errors; loader.go:137. *)
Definition entries (h : heap) (s : slice) : list (option E) := firstn (sl_len s) (nth (sl_array s) h []).

End Syntax.
