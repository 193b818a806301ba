(** * Parsing the files of a package: what is claimed (C49) *)

From Coq Require Import List Bool Arith.
Import ListNotations.
From Verif Require Import SyntaxModel.
Open Scope nat_scope.
Open Scope list_scope.

(** The slice [s] holds exactly [l]. *)
Definition holds {E} (h : heap E) (s : slice) (l : list E) : Prop :=
  sl_array s < length h /\ sl_len s = length l /\ entries E h s = map Some l.

(** The entries that are reported for the i-th file. *)
Definition reported {Name F E} (parse : Name -> F + list E) (files : list Name) (i : nat) : list E :=
  match nth_error files i with
  | Some f => match parse f with inl _ => [] | inr es => es end
  | None => []
  end.

(** NeedSyntax has returned. *)
Definition returned {F E} (s : state F E) : Prop := s_main F E s = Returned.

(** A goroutine is between reading p.Errors and writing it. *)
Definition adding {F E} (s : state F E) (i : nat) : Prop :=
  match nth_error (s_go F E s) i with Some (Append _ _ _ _) | Some (Store _ _ _) => True | _ => False end.

(** A run during which no two goroutines are between reading p.Errors and writing it. *)
Inductive exclusive {Name F E} (parse : Name -> F + list E) (grow : nat -> nat) (files : list Name)
    : list (option nat) -> state F E -> Prop :=
| ex_end s : exclusive parse grow files [] s
| ex_step w sched s s' :
    (forall i j, adding s i -> adding s j -> i = j) ->
    exec Name F E parse grow files w s = Some s' -> exclusive parse grow files sched s' ->
    (forall i j, adding s' i -> adding s' j -> i = j) ->
    exclusive parse grow files (w :: sched) s.

(** One call after the other, with all schedules. *)
Inductive calls {Name F E} (parse : Name -> F + list E) (grow : nat -> nat) (files : list Name)
    : nat -> heap E -> slice -> option (list F) -> heap E -> slice -> option (list F) -> Prop :=
| c_none h e syn : calls parse grow files 0 h e syn h e syn
| c_more k h e syn h1 e1 syn1 sched s :
    calls parse grow files k h e syn h1 e1 syn1 ->
    runs Name F E parse grow files sched (call F E h1 e1 syn1) = Some s -> returned s ->
    calls parse grow files (S k) h e syn (s_heap F E s) (s_errors F E s) (s_syntax F E s).
