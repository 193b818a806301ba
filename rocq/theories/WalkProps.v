(** * C07: schema walking. *)

From Coq Require Import List String Bool Permutation Lia.
From Verif Require Import GoLib SchemaModel SchemaFacts WalkModel WalkSpec WalkProofs RbacProps.
Import ListNotations.
Open Scope string_scope.
Open Scope list_scope.

(** Walking with any visitor that does not edit, however it uses its own state, terminates, leaves the schema alone and
    makes exactly the calls the trace specification allows: the node, then its children in field order (map entries in
    some order), then the closing call; and nothing below a node where nil was returned. *)
Theorem walk_calls : forall (V St : Type) (dec : V -> schema -> St -> St * option V) (close : V -> St -> St)
    (ord : list string -> list string) (s : schema) (fuel : nat) (v : V) (st : St) (tr0 : list (event V)),
  is_order ord -> schema_wf s -> ssize s <= fuel ->
  exists st' tr,
    walk (log_visit V St dec) (log_finish V St close) ord fuel v s (st, tr0) = Some (s, (st', tr0 ++ tr)) /\
    wtrace V St dec close v s st tr st'.
Proof. intros V St dec close ord s fuel v st tr0 Ho Hwf Hf. exact (walk_read_only V St dec close ord Ho s fuel v st tr0 Hwf Hf). Qed.
Print Assumptions walk_calls.

(** Every node that is not below a stopping node is visited exactly once. *)
Theorem walk_visits_once : forall (V St : Type) (dec : V -> schema -> St -> St * option V) (close : V -> St -> St) (stop : schema -> bool)
    (v : V) (s : schema) (st : St) (tr : list (event V)) (st' : St),
  (forall v s st, snd (dec v s st) = None <-> stop s = true) ->
  wtrace V St dec close v s st tr st' -> Permutation (entered tr) (reached stop s).
Proof. intros V St dec close stop v s st tr st' Hs. exact (wtrace_entered V St dec close stop Hs v s st tr st'). Qed.
Print Assumptions walk_visits_once.

(** A visitor that never stops visits every subschema exactly once. *)
Theorem walk_visits_all : forall (V St : Type) (dec : V -> schema -> St -> St * option V) (close : V -> St -> St)
    (v : V) (s : schema) (st : St) (tr : list (event V)) (st' : St),
  (forall v s st, snd (dec v s st) <> None) ->
  wtrace V St dec close v s st tr st' -> Permutation (entered tr) (subschemas s).
Proof.
  intros V St dec close v s st tr st' Hs H. rewrite <- reached_false.
  apply (wtrace_entered V St dec close (fun _ => false)) in H; [exact H|].
  intros v0 s0 st0. split; [intros E; destruct (Hs _ _ _ E)|discriminate].
Qed.
Print Assumptions walk_visits_all.

(** The keyword edits of a visitor reach every node exactly once (as long as they leave $ref alone). *)
Theorem walk_edits : forall (f : kw -> kw) (ord : list string -> list string) (s : schema) (fuel : nat),
  (forall k, k_ref (f k) = k_ref k) -> is_order ord -> schema_wf s -> ssize s <= fuel ->
  walk (fun (_ : unit) s st => (with_kw s (f (s_kw s)), st, Some tt)) (fun _ s st => (s, st)) ord fuel tt s tt = Some (map_kw f s, tt).
Proof. intros f ord s fuel Hf Ho Hwf Hfu. exact (walk_edit f Hf ord Ho _ (fun _ => eq_refl) s fuel Hwf Hfu). Qed.
Print Assumptions walk_edits.

(** A schema using items, allOf, properties, additionalProperties and dependencies, with a reference. *)
Definition leaf (d : string) : schema := with_kw schema0 (set_k_desc kw0 d).
Definition walk_demo : schema :=
  Sch (set_k_ref kw0 (Some "#/definitions/T")) (Some (Some (leaf "item"), [])) [leaf "a1"; leaf "a2"] [] [] (Some (leaf "n"))
    [("x", leaf "px"); ("y", Sch kw0 None [leaf "deep"] [] [] None [] None [] [] None [])]
    (Some (true, Some (leaf "addl"))) [] [("d", (Some (leaf "dep"), [])); ("e", (None, ["x"]))] None [].

Example walk_demo_wf : schema_wf walk_demo.
Proof.
  intros x Hx. cbn in Hx. repeat (destruct Hx as [<-|Hx]; [split; [|split; [|split]]; cbn; repeat constructor; cbn; intuition discriminate|]).
  destruct Hx.
Qed.
(** Stopping at "y" hides "deep", and reversing the map order exchanges the properties. *)
Example walk_demo_trace :
  option_map (fun r => map (fun s => k_desc (s_kw s)) (entered (snd (snd r))))
    (walk (log_visit unit unit (fun _ s st => (st, match s_allOf s with [_] => None | _ => Some tt end))) (log_finish unit unit (fun _ st => st))
       (@rev string) 40 tt walk_demo (tt, []))
  = Some [""; "item"; "a1"; "a2"; "n"; ""; "px"; "addl"; "dep"].
Proof. vm_compute. reflexivity. Qed.
