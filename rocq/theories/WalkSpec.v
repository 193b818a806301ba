(** * Specification of schema walking: the sequence of calls a visitor must see. *)

From Coq Require Import List String Bool Permutation Lia.
From Verif Require Import SchemaModel SchemaFacts.
Import ListNotations.
Open Scope list_scope.

(** The orders in which the children may be walked: the fields in their documented order, the values of each map in
    any order. *)
Definition child_order (s : schema) (cs : list schema) : Prop :=
  exists p1 p2 p3 p4,
    Permutation p1 (map snd (s_props s)) /\ Permutation p2 (map snd (s_patprops s)) /\
    Permutation p3 (flat_map (fun d => opt_list (fst (snd d))) (s_deps s)) /\ Permutation p4 (map snd (s_defs s)) /\
    cs = items_list (s_items s) ++ s_allOf s ++ s_oneOf s ++ s_anyOf s ++ opt_list (s_not s) ++
         p1 ++ orbool_list (s_addl s) ++ p2 ++ p3 ++ orbool_list (s_addl_items s) ++ p4.

(** What happens to a visitor: it is called on a node, or called with nil. *)
Inductive event (V : Type) := Enter (v : V) (s : schema) | Leave (v : V).
Arguments Enter {V}. Arguments Leave {V}.

(** The nodes the visitor was called on, in order. *)
Definition entered {V} (tr : list (event V)) : list schema :=
  flat_map (fun e => match e with Enter _ s => [s] | Leave _ => [] end) tr.

Section Trace.
  (** A visitor that does not edit: it looks at the node and its own state [St], and returns the visitor for the
      children or nil. [close] is its reaction to the closing nil call. *)
  Variable V St : Type.
  Variable dec : V -> schema -> St -> St * option V.
  Variable close : V -> St -> St.

  Inductive wtrace : V -> schema -> St -> list (event V) -> St -> Prop :=
  | wt_stop v s st st' : dec v s st = (st', None) -> wtrace v s st [Enter v s] st'
  | wt_go v s st v' st1 cs tr st2 :
      dec v s st = (st1, Some v') -> child_order s cs -> wtraces v' cs st1 tr st2 ->
      wtrace v s st (Enter v s :: tr ++ [Leave v']) (close v' st2)
  with wtraces : V -> list schema -> St -> list (event V) -> St -> Prop :=
  | wts_nil v st : wtraces v [] st [] st
  | wts_cons v c cs st tr1 st1 tr2 st2 :
      wtrace v c st tr1 st1 -> wtraces v cs st1 tr2 st2 -> wtraces v (c :: cs) st (tr1 ++ tr2) st2.

  (** Such a visitor as the code sees it, instrumented with a log of the calls. *)
  Definition log_visit (v : V) (s : schema) (p : St * list (event V)) : schema * (St * list (event V)) * option V :=
    let (st', r) := dec v s (fst p) in (s, (st', snd p ++ [Enter v s]), r).
  Definition log_finish (v : V) (s : schema) (p : St * list (event V)) : schema * (St * list (event V)) :=
    (s, (close v (fst p), snd p ++ [Leave v])).
End Trace.

(** The nodes of a schema that are not below a stopping node, parent before children. *)
Fixpoint reached_fuel (stop : schema -> bool) (fuel : nat) (s : schema) : list schema :=
  match fuel with
  | O => []
  | S n => s :: (if stop s then [] else flat_map (reached_fuel stop n) (children s))
  end.
Definition reached (stop : schema -> bool) (s : schema) : list schema := reached_fuel stop (ssize s) s.

Lemma reached_fuel_enough stop : forall s n, ssize s <= n -> reached_fuel stop n s = reached_fuel stop (ssize s) s.
Proof.
  induction s as [s IH] using schema_rec_ind. intros n Hn.
  assert (Hs : exists k, ssize s = S k) by (destruct s; simpl; eauto). destruct Hs as (k & Hk).
  destruct n as [|n]; [lia|]. rewrite Hk. cbn [reached_fuel]. f_equal. destruct (stop s); [reflexivity|].
  assert (Hc : forall c, In c (children s) -> ssize c <= n /\ ssize c <= k).
  { intros c Hc. pose proof (child_smaller _ _ Hc). lia. }
  revert IH Hc. generalize (children s) as l. intros l IH Hc. induction l as [|c cs IHc]; [reflexivity|]. simpl.
  rewrite (IH c (or_introl eq_refl) n), (IH c (or_introl eq_refl) k) by (apply Hc; left; reflexivity).
  f_equal. apply IHc; intros x Hx; [apply IH|apply Hc]; right; exact Hx.
Qed.

(** Defining equation: the node itself, then, unless the visitor stops there, what is reached from the children. *)
Lemma reached_eq stop s : reached stop s = s :: (if stop s then [] else flat_map (reached stop) (children s)).
Proof.
  unfold reached at 1.
  assert (Hs : exists k, ssize s = S k) by (destruct s; simpl; eauto). destruct Hs as (k & Hk).
  rewrite Hk. cbn [reached_fuel]. f_equal. destruct (stop s); [reflexivity|].
  assert (Hc : forall c, In c (children s) -> ssize c <= k).
  { intros c Hc. pose proof (child_smaller _ _ Hc). lia. }
  revert Hc. generalize (children s) as l. intros l Hc. induction l as [|c cs IHc]; [reflexivity|]. simpl.
  rewrite reached_fuel_enough by (apply Hc; left; reflexivity). f_equal. apply IHc. intros x Hx; apply Hc; right; exact Hx.
Qed.
