(** * Which errors an aggregated error stands for. *)

From Coq Require Import List String.
From Verif Require Import GoLib ErrorsModel.
Import ListNotations.
Open Scope string_scope.
Open Scope list_scope.

(** [sees e l]: unwrapping [e] finds the list [l] first. *)
Inductive sees : err -> list err -> Prop :=
| sees_list l : sees (EList l) l
| sees_wrap p e l : sees e l -> sees (EWrap p e) l
| sees_join l1 e l2 l : (forall x, In x l1 -> sees_none x) -> sees e l -> sees (EJoin (l1 ++ e :: l2)) l
with sees_none : err -> Prop :=
| none_plain m : sees_none (EPlain m)
| none_path p m : sees_none (EPath p m)
| none_scan l : sees_none (EScan l)
| none_type p m : sees_none (EType p m)
| none_pos p e : sees_none (EPos p e)
| none_wrap p e : sees_none e -> sees_none (EWrap p e)
| none_join l : (forall x, In x l -> sees_none x) -> sees_none (EJoin l).

(** The single errors in an error, in order. *)
Inductive leaves : err -> list err -> Prop :=
| leaves_one e : sees_none e -> leaves e [e]
| leaves_many e l lss : sees e l -> Forall2 leaves l lss -> leaves e (List.concat lss).

(** What an error says: its own text, a position adds none, an aggregation is that of its parts. *)
Section Says.
  Variable path_text : string -> string -> string.
  Variable scan_text : list (string * string) -> string.
  Variable type_text : nat -> string -> string.
  Inductive says : err -> string -> Prop :=
  | says_plain m : says (EPlain m) m
  | says_path p m : says (EPath p m) (path_text p m)
  | says_scan l : says (EScan l) (scan_text l)
  | says_type p m : says (EType p m) (type_text p m)
  | says_list l ss : Forall2 says l ss -> says (EList l) ("[" ++ join " " ss ++ "]")%string
  | says_pos p e s : says e s -> says (EPos p e) s
  | says_wrap pre e s : says e s -> says (EWrap pre e) (pre ++ s)%string
  | says_join l ss : Forall2 says l ss -> says (EJoin l) (join (String (Ascii.ascii_of_nat 10) "") ss).
End Says.
