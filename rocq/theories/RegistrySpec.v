(** * What a marker definition is found by. *)
From Coq Require Import List String Ascii Bool.
From Verif Require Import GoLib RegistryModel.
Import ListNotations.

(** [d] is the last definition registered with this target and name. *)
Definition registered_as {A : Type} (ds : list (def A)) (t : target) (n : string) (d : def A) : Prop :=
  exists l1 l2, ds = l1 ++ d :: l2 /\ d_target d = t /\ d_name d = n /\ forall d', In d' l2 -> ~ (d_target d' = t /\ d_name d' = n).
Definition unregistered {A : Type} (ds : list (def A)) (t : target) (n : string) : Prop := forall d, In d ds -> ~ (d_target d = t /\ d_name d = n).
