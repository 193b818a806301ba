(** * C08-C10: allOf flattening and inlining of references. *)

From Coq Require Import List String ZArith QArith Bool Permutation Lia Arith.
From Verif Require Import GoLib SchemaModel SchemaFacts WalkModel WalkSpec WalkProofs FlattenModel ValidSpec FlattenSpec.
From Verif Require Import FlattenProofs FlattenProofs3 FlattenProofs4 FlattenProofs5 FlattenProofs6 FlattenProofs7 FlattenProofs8 RbacProps.
Import ListNotations.
Open Scope string_scope.
Open Scope list_scope.
Open Scope nat_scope.

(** ** C08 *)

(** Flattening terminates, and the map orders change at most the order of the reported errors. *)
Theorem flatten_deterministic : forall (s : schema) (fuel : nat),
  schema_wf s -> all_nodes (fun x => k_ref (s_kw x) = None) s -> 2 * ssize s + 2 <= fuel ->
  exists s' es, forall ord, is_order ord -> exists es', flatten_embedded ord fuel s = Some (s', es') /\ Permutation es' es.
Proof. exact flatten_det. Qed.
Print Assumptions flatten_deterministic.

(** If no type conflict is reported and no node of the result mixes properties with an additionalProperties schema, the
    flattened schema accepts the same values without null. *)
Theorem flatten_equivalent : forall (O : oracles) (ord : list string -> list string) (s s' : schema) (fuel : nat) (v : json),
  is_order ord -> plain s -> 2 * ssize s + 2 <= fuel ->
  flatten_embedded ord fuel s = Some (s', []) -> unmixed s' -> null_free v = true ->
  valid O s' v = valid O s v.
Proof. exact flatten_equiv. Qed.
Print Assumptions flatten_equivalent.

(** Flattening never rejects a value that was accepted, whatever errors it reports. *)
Theorem flatten_accepts : forall (O : oracles) (ord : list string -> list string) (s s' : schema) (es : list terr) (fuel : nat) (v : json),
  is_order ord -> plain s -> positive s -> 2 * ssize s + 2 <= fuel ->
  flatten_embedded ord fuel s = Some (s', es) ->
  valid O s v = true -> valid O s' v = true.
Proof. exact flatten_acc. Qed.
Print Assumptions flatten_accepts.

(** Two members with lengths, properties in both members with conflicting bounds below, and a nested allOf. *)
Definition kmax (q : Q) : kw := set_k_maximum kw0 (Some q).
Definition obj (ps : list (string * schema)) : schema := set_props (with_kw schema0 (set_k_type kw0 "object")) ps.
Definition num (q : Q) : schema := with_kw schema0 (set_k_type (kmax q) "number").
Definition flat_demo : schema :=
  set_allOf (obj [("a", num 1)])
    [obj [("a", num 2); ("b", num 3)]; set_allOf (with_kw schema0 (set_k_required kw0 ["b"; "a"])) [set_props schema0 [("b", num 4)]]].

Ltac nodes := intros x Hx; cbn in Hx; repeat (destruct Hx as [<-|Hx]; [|]); try (destruct Hx; fail).
Definition O_demo : oracles := mkOracles (fun _ _ => true) (fun _ => 0%Z) (fun _ _ => true) (fun _ _ => true) (fun _ _ => true) (fun _ _ => true) (fun _ => true) (fun _ _ => true).
Ltac wfnode := split; [|split; [|split]]; cbn; repeat constructor; cbn; intuition discriminate.

Example flat_demo_plain : plain flat_demo /\ positive flat_demo.
Proof.
  split.
  - nodes; (split; [wfnode|repeat split; try reflexivity; discriminate]).
  - nodes; intros c [[]|H]; discriminate.
Qed.
Example flat_demo_run : exists s', flatten_embedded (fun l => l) 40 flat_demo = Some (s', []) /\ unmixed s' /\
  List.length (s_allOf s') = 0 /\ map fst (s_props s') = ["a"; "b"] /\ k_required (s_kw s') = ["a"; "b"] /\
  forall a, mget String.eqb (s_props s') "a" = Some a -> List.length (s_allOf a) = 2.
Proof.
  eexists. split; [vm_compute; reflexivity|]. split; [nodes; first [left; reflexivity | right; exact I]|].
  split; [reflexivity|]. split; [reflexivity|]. split; [reflexivity|]. intros a H. vm_compute in H. injection H as <-. reflexivity.
Qed.
Example flat_demo_values :
  valid O_demo flat_demo (JObj [("a", JNum 1); ("b", JNum 3)]) = true /\ valid O_demo flat_demo (JObj [("a", JNum 2); ("b", JNum 3)]) = false.
Proof. split; vm_compute; reflexivity. Qed.

(** Each remaining hypothesis is needed. *)

(** A bound and its exclusive flag are merged separately: two bounds of 5, one of them exclusive. The bounds conflict and
    go to the remainders, the flag stays behind on the parent: 5 was rejected and is accepted now. *)
Definition excl_demo : schema :=
  set_allOf schema0 [with_kw schema0 (kmax 5); with_kw schema0 (set_k_excl_max (kmax 5) true)].
Theorem flatten_exclusive_refuted : ~ (forall (O : oracles) (s s' : schema) (v : json),
  schema_wf s -> unmixed s' -> null_free v = true -> flatten_embedded (fun l => l) (2 * ssize s + 2) s = Some (s', []) -> valid O s' v = valid O s v).
Proof.
  intros H. specialize (H O_demo excl_demo). cbn [excl_demo] in H.
  assert (exists s', flatten_embedded (fun l => l) (2 * ssize excl_demo + 2) excl_demo = Some (s', []) /\ unmixed s' /\
     valid O_demo s' (JNum 5) = true /\ valid O_demo excl_demo (JNum 5) = false) as (s' & E & U & V1 & V2).
  { eexists. split; [vm_compute; reflexivity|]. split; [nodes; left; reflexivity|]. split; vm_compute; reflexivity. }
  assert (W : schema_wf excl_demo) by (nodes; wfnode).
  specialize (H s' (JNum 5) W U eq_refl E). congruence.
Qed.
Print Assumptions flatten_exclusive_refuted.

(** A flag without a bound means nothing until it is merged with another member's bound: 5 was accepted and is rejected. *)
Theorem flatten_exclusive_rejects_refuted : ~ (forall (O : oracles) (s s' : schema) (v : json),
  schema_wf s -> positive s -> unmixed s' -> null_free v = true -> flatten_embedded (fun l => l) (2 * ssize s + 2) s = Some (s', []) ->
  valid O s v = true -> valid O s' v = true).
Proof.
  intros H. set (s := set_allOf schema0 [with_kw schema0 (kmax 5); with_kw schema0 (set_k_excl_max kw0 true)]).
  assert (exists s', flatten_embedded (fun l => l) (2 * ssize s + 2) s = Some (s', []) /\ unmixed s' /\
     valid O_demo s' (JNum 5) = false /\ valid O_demo s (JNum 5) = true) as (s' & E & U & V1 & V2).
  { eexists. split; [vm_compute; reflexivity|]. split; [nodes; left; reflexivity|]. split; vm_compute; reflexivity. }
  assert (W : schema_wf s) by (nodes; wfnode).
  assert (P : positive s) by (nodes; intros c [[]|Hc]; discriminate).
  specialize (H O_demo s s' (JNum 5) W P U eq_refl E V2). congruence.
Qed.
Print Assumptions flatten_exclusive_rejects_refuted.

(** nullable is merged with "or": null satisfied only one of the two members, and satisfies the result. *)
Theorem flatten_null_refuted : ~ (forall (O : oracles) (s s' : schema) (v : json),
  plain s -> unmixed s' -> flatten_embedded (fun l => l) (2 * ssize s + 2) s = Some (s', []) -> valid O s' v = valid O s v).
Proof.
  intros H. set (s := set_allOf schema0 [with_kw schema0 (set_k_type kw0 "string"); with_kw schema0 (set_k_nullable (set_k_type kw0 "string") true)]).
  assert (exists s', flatten_embedded (fun l => l) (2 * ssize s + 2) s = Some (s', []) /\ unmixed s' /\
     valid O_demo s' JNull = true /\ valid O_demo s JNull = false) as (s' & E & U & V1 & V2).
  { eexists. split; [vm_compute; reflexivity|]. split; [nodes; left; reflexivity|]. split; vm_compute; reflexivity. }
  assert (P : plain s) by (nodes; (split; [wfnode|repeat split; try reflexivity; discriminate])).
  specialize (H O_demo s s' JNull P U E). congruence.
Qed.
Print Assumptions flatten_null_refuted.

(** properties of one member beside additionalProperties of another: merged into one node, additionalProperties no longer
    applies to the named property. *)
Theorem flatten_mixed_refuted : ~ (forall (O : oracles) (s s' : schema) (v : json),
  plain s -> null_free v = true -> flatten_embedded (fun l => l) (2 * ssize s + 2) s = Some (s', []) -> valid O s' v = valid O s v).
Proof.
  intros H. set (s := set_allOf schema0 [set_props schema0 [("a", schema0)]; set_addl schema0 (Some (true, Some (num 1)))]).
  assert (exists s', flatten_embedded (fun l => l) (2 * ssize s + 2) s = Some (s', []) /\
     valid O_demo s' (JObj [("a", JNum 2)]) = true /\ valid O_demo s (JObj [("a", JNum 2)]) = false) as (s' & E & V1 & V2).
  { eexists. split; [vm_compute; reflexivity|]. split; vm_compute; reflexivity. }
  assert (P : plain s) by (nodes; (split; [wfnode|repeat split; try reflexivity; discriminate])).
  specialize (H O_demo s s' (JObj [("a", JNum 2)]) P eq_refl E). congruence.
Qed.
Print Assumptions flatten_mixed_refuted.

(** ** C09 *)

(** Below an allOf of the result nothing is left that flattening merges: no nested allOf, type, properties,
    additionalProperties, required, rules, documentation or flags. *)
Theorem flatten_remainders : forall (ord : list string -> list string) (s s' : schema) (es : list terr) (fuel : nat),
  is_order ord -> schema_wf s -> all_nodes (fun x => k_ref (s_kw x) = None) s -> 2 * ssize s + 2 <= fuel ->
  flatten_embedded ord fuel s = Some (s', es) ->
  all_nodes (fun x => forall e, In e (s_allOf x) -> remainder_node e) s'.
Proof. exact flatten_rem. Qed.
Print Assumptions flatten_remainders.

(** items is not among them: two members with items leave both under the allOf. *)
Theorem flatten_items_under_allOf_refuted : ~ (forall (s s' : schema) (es : list terr),
  plain s -> flatten_embedded (fun l => l) (2 * ssize s + 2) s = Some (s', es) ->
  all_nodes (fun x => forall e, In e (s_allOf x) -> s_items e = None) s').
Proof.
  intros H. set (s := set_allOf schema0 [set_items schema0 (Some (Some (num 1), [])); set_items schema0 (Some (Some (num 2), []))]).
  assert (exists s' es, flatten_embedded (fun l => l) (2 * ssize s + 2) s = Some (s', es) /\
     exists e, In e (s_allOf s') /\ s_items e <> None) as (s' & es & E & e & He & Hi).
  { do 2 eexists. split; [vm_compute; reflexivity|]. eexists. split; [left; reflexivity|]. discriminate. }
  assert (P : plain s) by (nodes; (split; [wfnode|repeat split; try reflexivity; discriminate])).
  apply Hi. exact (H s s' es P E s' (subschemas_self s') e He).
Qed.
Print Assumptions flatten_items_under_allOf_refuted.

(** Flattening a type whose references lead to known types, without cycles: it terminates without errors, the result is the
    inlined schema whatever was cached before and whatever the map orders, it contains no reference, and the cache stays
    usable for the next call. *)
Theorem flatten_type_inlines : forall lookup env rank id base,
  acyclic_env lookup env rank -> env id = Some base ->
  exists t, inlined lookup env preserve_fields (fst id) base t /\ all_nodes no_ref t /\
  forall ord, is_order ord -> exists F, forall fuel st, F <= fuel -> cache_ok lookup env st ->
    exists st', flatten_type lookup env ord fuel id st = Some (Some t, st') /\ fs_errs st' = fs_errs st /\ cache_ok lookup env st'.
Proof. exact flatten_type_inl. Qed.
Print Assumptions flatten_type_inlines.

(** Any sequence of calls starting from an empty cache returns the same schemas as separate calls. *)
Fixpoint flatten_types lookup env ord fuel (ids : list ident) (st : fstate) : option (list (option schema) * fstate) :=
  match ids with
  | [] => Some ([], st)
  | id :: ids' =>
      match flatten_type lookup env ord fuel id st with
      | None => None
      | Some (r, st1) => match flatten_types lookup env ord fuel ids' st1 with None => None | Some (rs, st2) => Some (r :: rs, st2) end
      end
  end.
Theorem flatten_types_independent : forall lookup env rank ids,
  acyclic_env lookup env rank -> (forall id, In id ids -> env id <> None) ->
  exists ts, Forall2 (fun id t => exists base, env id = Some base /\ inlined lookup env preserve_fields (fst id) base t /\ all_nodes no_ref t) ids ts /\
  forall ord, is_order ord -> exists F, forall fuel, F <= fuel ->
    exists st', flatten_types lookup env ord fuel ids (mkFs [] []) = Some (map Some ts, st') /\ fs_errs st' = [].
Proof.
  intros lookup env rank ids Hac Hids.
  assert (G : exists ts, Forall2 (fun id t => exists base, env id = Some base /\ inlined lookup env preserve_fields (fst id) base t /\ all_nodes no_ref t) ids ts /\
    forall ord, is_order ord -> exists F, forall fuel st, F <= fuel -> cache_ok lookup env st ->
      exists st', flatten_types lookup env ord fuel ids st = Some (map Some ts, st') /\ fs_errs st' = fs_errs st).
  { induction ids as [|id ids IH].
    - exists []. split; [constructor|]. intros ord Hord. exists 0. intros fuel st _ _. exists st. auto.
    - destruct IH as (ts & H1 & H2); [intros; apply Hids; right; assumption|].
      destruct (env id) as [base|] eqn:Ee; [|destruct (Hids id (or_introl eq_refl) Ee)].
      destruct (flatten_type_inl lookup env rank id base Hac Ee) as (t & Ht & Hn & H3).
      exists (t :: ts). split; [constructor; [exists base; auto|exact H1]|].
      intros ord Hord. destruct (H2 ord Hord) as [F1 HF1]. destruct (H3 ord Hord) as [F2 HF2]. exists (max F1 F2). intros fuel st Hf Hst.
      destruct (HF2 fuel st) as (st1 & E1 & R1 & C1); [lia|exact Hst|]. destruct (HF1 fuel st1) as (st2 & E2 & R2); [lia|exact C1|].
      exists st2. simpl. rewrite E1, E2. split; [reflexivity|congruence]. }
  destruct G as (ts & H1 & H2). exists ts. split; [exact H1|]. intros ord Hord. destruct (H2 ord Hord) as [F HF]. exists F. intros fuel Hf.
  destruct (HF fuel (mkFs [] []) Hf) as (st' & E & R); [intros id cs H; discriminate H|]. exists st'. auto.
Qed.
Print Assumptions flatten_types_independent.

(** Type p.Foo: a field with a reference to q.Bar, which is an alias of q.Baz; Baz has a property. *)
Definition ref_schema (r : string) (d : string) : schema := with_kw schema0 (set_k_desc (set_k_ref kw0 (Some r)) d).
Definition demo_lookup (r pkg : string) : option ident :=
  if String.eqb r "#/definitions/q~0Bar" then Some ("q", "Bar")
  else if String.eqb r "#/definitions/Baz" then Some (pkg, "Baz") else if String.eqb r "#/definitions/Foo" then Some (pkg, "Foo") else None.
Definition demo_env (id : ident) : option schema :=
  if ident_eqb id ("p", "Foo") then Some (obj [("bar", ref_schema "#/definitions/q~0Bar" "the bar"); ("own", ref_schema "#/definitions/q~0Bar" "")])
  else if ident_eqb id ("q", "Bar") then Some (ref_schema "#/definitions/Baz" "a Bar")
  else if ident_eqb id ("q", "Baz") then Some (set_desc (obj [("n", num 3)]) "a Baz")
  else None.
Definition demo_rank (id : ident) : nat := if ident_eqb id ("p", "Foo") then 2 else if ident_eqb id ("q", "Bar") then 1 else 0.

Lemma demo_links_bar d n : NoDup (alias_links demo_lookup demo_env n "p" (ref_schema "#/definitions/q~0Bar" d)).
Proof. do 3 (destruct n as [|n]; [repeat constructor; cbn; intuition discriminate|]). cbn. repeat constructor; cbn; intuition discriminate. Qed.
Example demo_acyclic : acyclic_env demo_lookup demo_env demo_rank.
Proof.
  intros id base. unfold demo_env. destruct (ident_eqb id ("p", "Foo")) eqn:E1; [apply ident_eqb_eq in E1; subst id; intros [= <-]|].
  { nodes; (split; [wfnode|split]).
    - intros n. destruct n; cbn; constructor.
    - discriminate.
    - apply demo_links_bar.
    - intros r [= <-] _. split; [reflexivity|]. do 2 eexists. repeat split. cbn. lia.
    - apply demo_links_bar.
    - intros r [= <-] _. split; [reflexivity|]. do 2 eexists. repeat split. cbn. lia. }
  destruct (ident_eqb id ("q", "Bar")) eqn:E2; [apply ident_eqb_eq in E2; subst id; intros [= <-]|].
  { nodes. split; [wfnode|split].
    - intros n. do 2 (destruct n as [|n]; [repeat constructor; cbn; intuition discriminate|]). cbn. repeat constructor; cbn; intuition discriminate.
    - intros r [= <-] _. split; [reflexivity|]. do 2 eexists. repeat split. cbn. lia. }
  destruct (ident_eqb id ("q", "Baz")) eqn:E3; [apply ident_eqb_eq in E3; subst id; intros [= <-]|discriminate].
  nodes; (split; [wfnode|split]); try (intros n; destruct n; cbn; constructor); discriminate.
Qed.
Example demo_runs : exists t st, flatten_type demo_lookup demo_env (fun l => l) 20 ("p", "Foo") (mkFs [] []) = Some (Some t, st) /\
  option_map (fun f => k_desc (s_kw f)) (mget String.eqb (s_props t) "bar") = Some "the bar" /\
  option_map (fun f => k_desc (s_kw f)) (mget String.eqb (s_props t) "own") = Some "a Bar".
Proof. do 2 eexists. split; [vm_compute; reflexivity|]. split; reflexivity. Qed.

(** The condition on alias chains is needed: reading p.Foo, an alias of q.Bar, which is an alias of q.Foo, the same link
    text "#/definitions/Foo" is met twice in one chain, is taken for a repetition, and stays in the output. *)
Definition chain_lookup (r pkg : string) : option ident :=
  if String.eqb r "#/definitions/q~0Bar" then Some ("q", "Bar") else if String.eqb r "#/definitions/Foo" then Some (pkg, "Foo") else None.
Definition chain_env (id : ident) : option schema :=
  if ident_eqb id ("p", "Holder") then Some (obj [("f", ref_schema "#/definitions/Foo" "")])
  else if ident_eqb id ("p", "Foo") then Some (ref_schema "#/definitions/q~0Bar" "")
  else if ident_eqb id ("q", "Bar") then Some (ref_schema "#/definitions/Foo" "")
  else if ident_eqb id ("q", "Foo") then Some (num 3) else None.
Definition chain_rank (id : ident) : nat :=
  if ident_eqb id ("p", "Holder") then 3 else if ident_eqb id ("p", "Foo") then 2 else if ident_eqb id ("q", "Bar") then 1 else 0.
(** acyclic_env without its condition on alias chains *)
Definition acyclic_refs (lookup : string -> string -> option ident) (env : ident -> option schema) (rank : ident -> nat) : Prop :=
  forall id base, env id = Some base -> all_nodes (fun x => node_wf x /\ forall r, k_ref (s_kw x) = Some r -> r <> "" ->
    children x = [] /\ exists id' base', lookup r (fst id) = Some id' /\ env id' = Some base' /\ rank id' < rank id) base.
Theorem flatten_alias_chain_refuted : ~ (forall lookup env rank id base, acyclic_refs lookup env rank -> env id = Some base ->
  forall fuel t st, flatten_type lookup env (fun l => l) fuel id (mkFs [] []) = Some (Some t, st) -> all_nodes no_ref t).
Proof.
  intros H. specialize (H chain_lookup chain_env chain_rank ("p", "Holder") (obj [("f", ref_schema "#/definitions/Foo" "")])).
  assert (A : acyclic_refs chain_lookup chain_env chain_rank).
  { intros id base. unfold chain_env at 1. destruct (ident_eqb id ("p", "Holder")) eqn:E0; [apply ident_eqb_eq in E0; subst id; intros [= <-]|].
    { nodes; (split; [wfnode|]); [discriminate|]. intros r [= <-] _. split; [reflexivity|]. do 2 eexists. repeat split. cbn. lia. }
    destruct (ident_eqb id ("p", "Foo")) eqn:E1; [apply ident_eqb_eq in E1; subst id; intros [= <-]|].
    { nodes. split; [wfnode|]. intros r [= <-] _. split; [reflexivity|]. do 2 eexists. repeat split. cbn. lia. }
    destruct (ident_eqb id ("q", "Bar")) eqn:E2; [apply ident_eqb_eq in E2; subst id; intros [= <-]|].
    { nodes. split; [wfnode|]. intros r [= <-] _. split; [reflexivity|]. do 2 eexists. repeat split. cbn. lia. }
    destruct (ident_eqb id ("q", "Foo")) eqn:E3; [apply ident_eqb_eq in E3; subst id; intros [= <-]|discriminate].
    nodes. split; [wfnode|discriminate]. }
  specialize (H A eq_refl 20).
  assert (exists t st, flatten_type chain_lookup chain_env (fun l => l) 20 ("p", "Holder") (mkFs [] []) = Some (Some t, st) /\
    existsb (fun x => match k_ref (s_kw x) with Some (String _ _) => true | _ => false end) (subschemas t) = true) as (t & st & E & D).
  { do 2 eexists. split; vm_compute; reflexivity. }
  apply existsb_exists in D as (x & Hx & Hd). destruct (H t st E x Hx) as [R|R]; rewrite R in Hd; discriminate.
Qed.
Print Assumptions flatten_alias_chain_refuted.

(** ** C10 *)

(** At every node of the inlined schema the documentation is the node's own where it has some, otherwise that of the type
    it refers to (through any number of aliases). *)
Theorem inline_docs : forall lookup env pkg s t,
  inlined lookup env preserve_fields pkg s t ->
  (forall d, doc_is lookup env k_title "" pkg s d -> k_title (s_kw t) = d) /\
  (forall d, doc_is lookup env k_desc "" pkg s d -> k_desc (s_kw t) = d) /\
  (forall d, doc_is lookup env k_example None pkg s d -> k_example (s_kw t) = d) /\
  (forall d, doc_is lookup env k_ext_docs None pkg s d -> k_ext_docs (s_kw t) = d).
Proof.
  intros lookup env pkg s t H. repeat split; intros d Hd.
  - exact (inlined_doc lookup env k_title "" title_own title_type pkg s t H d Hd).
  - exact (inlined_doc lookup env k_desc "" desc_own desc_type pkg s t H d Hd).
  - exact (inlined_doc lookup env k_example None example_own example_type pkg s t H d Hd).
  - exact (inlined_doc lookup env k_ext_docs None ext_own ext_type pkg s t H d Hd).
Qed.
Print Assumptions inline_docs.

(** allOf flattening keeps the documentation of the node it is applied to, and of the properties of nodes without allOf. *)
Theorem flatten_docs : forall (ord : list string -> list string) (s s' : schema) (es : list terr) (fuel : nat),
  is_order ord -> schema_wf s -> all_nodes (fun x => k_ref (s_kw x) = None) s -> 2 * ssize s + 2 <= fuel ->
  flatten_embedded ord fuel s = Some (s', es) ->
  docs_of s' = docs_of s /\
  (s_allOf s = [] -> forall p f, In (p, f) (s_props s) -> exists f', In (p, f') (s_props s') /\ docs_of f' = docs_of f).
Proof. exact flatten_doc. Qed.
Print Assumptions flatten_docs.

(** A value satisfies the inlined schema exactly if it satisfies the schema with its references read as the types they
    lead to: both the type's and the field's own constraints apply. *)
Theorem inline_constraints : forall (O : oracles) lookup env sem rank,
  refs_mean O lookup env sem -> acyclic_env lookup env rank -> (forall id base, env id = Some base -> all_nodes simple_node base) ->
  forall pkg s t k, inlined lookup env preserve_fields pkg s t -> closed_below lookup env rank k pkg s -> all_nodes simple_node s ->
  forall v, valid O t v = valid (with_refs O (sem pkg)) s v.
Proof. intros O lookup env sem rank H1 H2 H3 pkg s t k H4 H5 H6 v. exact (inlined_valid O lookup env sem rank H1 H2 H3 pkg s t H4 k H5 H6 v). Qed.
Print Assumptions inline_constraints.

(** The demo environment has a meaning of references, and its types are simple. *)
Definition demo_sem (pkg r : string) (v : json) : bool :=
  match demo_lookup r pkg with
  | Some id => if ident_eqb id ("q", "Bar") || ident_eqb id ("q", "Baz") then valid O_demo (set_desc (obj [("n", num 3)]) "a Baz") v
               else if ident_eqb id ("p", "Foo") then
                 match demo_env id with
                 | Some foo => valid (with_refs O_demo (fun _ => valid O_demo (set_desc (obj [("n", num 3)]) "a Baz"))) foo v
                 | None => true
                 end
               else true
  | None => true
  end.
Lemma ref_valid O' r d v : r <> "" -> valid O' (ref_schema r d) v = o_ref O' r v.
Proof.
  intros Hr. apply String.eqb_neq in Hr. rewrite FlattenProofs2.valid_plain by (simpl; auto). unfold FlattenProofs2.node_ok, kw_ok, kw_checks.
  cbn [forallb ref_schema with_kw s_kw k_ref set_k_desc set_k_ref opt_ok]. rewrite Hr. cbn [orb]. destruct v; cbn; rewrite ?andb_true_r; reflexivity.
Qed.
Example demo_means : refs_mean O_demo demo_lookup demo_env demo_sem /\ (forall id base, demo_env id = Some base -> all_nodes simple_node base).
Proof.
  split.
  - intros pkg r id base v Hl. unfold demo_sem at 1. rewrite Hl. unfold demo_env.
    destruct (ident_eqb id ("p", "Foo")) eqn:E1; [apply ident_eqb_eq in E1; subst id; intros [= <-]|].
    { destruct v as [| | | | |l]; reflexivity. }
    destruct (ident_eqb id ("q", "Bar")) eqn:E2; [apply ident_eqb_eq in E2; subst id; intros [= <-]|].
    { rewrite ref_valid by discriminate. reflexivity. }
    destruct (ident_eqb id ("q", "Baz")) eqn:E3; [apply ident_eqb_eq in E3; subst id; intros [= <-]; cbn [orb]; destruct v as [| | | | |l]; reflexivity|discriminate].
  - intros id base. unfold demo_env. destruct (ident_eqb id ("p", "Foo")); [intros [= <-]; nodes; split; reflexivity || exact I|].
    destruct (ident_eqb id ("q", "Bar")); [intros [= <-]; nodes; split; reflexivity || exact I|].
    destruct (ident_eqb id ("q", "Baz")); [intros [= <-]; nodes; split; reflexivity || exact I|discriminate].
Qed.
