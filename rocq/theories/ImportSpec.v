(** * Imports of the generated DeepCopy code: the claims' vocabulary *)

From Coq Require Import String List Bool Arith.
Import ListNotations.
From Verif Require Import ImportModel.
Open Scope nat_scope.
Open Scope list_scope.

(** [q] is the import path meant by [p]: the shortest of the parts of [p] that
    follow a "/vendor/", or [p]. *)
Definition means (p q : word) : Prop :=
  ((exists a, p = a ++ w "/vendor/" ++ q) /\
   (forall a q', p = a ++ w "/vendor/" ++ q' -> List.length q <= List.length q')) \/
  (q = p /\ forall a q', p <> a ++ w "/vendor/" ++ q').

(** An identifier of Go. *)
Definition identifier (letter digit : nat -> bool) (s : word) : Prop :=
  match s with
  | [] => False
  | c :: r => (letter c = true \/ c = underscore) /\
              forall x, In x r -> letter x = true \/ digit x = true \/ x = underscore
  end.

(** The name an import spec introduces: the alias, or the name of the package. *)
Definition bound_name (name_of : word -> option word) (s : option word * word) : option word :=
  match fst s with Some a => Some a | None => name_of (snd s) end.
