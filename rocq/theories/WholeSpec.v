(** * What a CRD accepts, up to the metadata of objects *)
From Coq Require Import List String Bool.
From Verif Require Import GoLib SchemaModel ErrorsModel ValidSpec.
Import ListNotations.
Open Scope string_scope.

(** The metadata of an object *)
Definition metadata (v : json) : option json := match v with JObj l => mget String.eqb l "metadata" | _ => None end.
Definition is_object (v : json) : Prop := exists l, v = JObj l.
(** A schema accepts the values of a type: all of them whose metadata is an object, and, of values with the metadata of some value of the
    type or without, no others. API servers check metadata on their own. *)
Definition accepts_values (ok : json -> bool) (values : json -> Prop) : Prop := forall v, null_free v = true ->
  (values v -> (forall m, metadata v = Some m -> is_object m) -> ok v = true) /\
  (ok v = true -> (forall m, metadata v = Some m -> exists w, null_free w = true /\ values w /\ metadata w = Some m) -> values v).
