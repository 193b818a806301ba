(** * The flattening lemmas in terms of FlattenEmbedded and FlattenType. *)

From Coq Require Import List String ZArith QArith Bool Permutation Lia Arith.
From Verif Require Import GoLib SchemaModel SchemaFacts WalkModel WalkSpec WalkProofs FlattenModel ValidSpec FlattenSpec.
From Verif Require Import FlattenProofs FlattenProofs3 FlattenProofs4 FlattenProofs5 FlattenProofs6 FlattenProofs7.
Import ListNotations.
Open Scope string_scope.
Open Scope list_scope.
Open Scope nat_scope.

Lemma embedded_fl ord fuel s : is_order ord -> schema_wf s -> all_nodes (fun x => k_ref (s_kw x) = None) s -> 2 * ssize s + 2 <= fuel ->
  exists es, flatten_embedded ord fuel s = Some (fst (fl fuel s), es) /\ Permutation es (snd (fl fuel s)).
Proof.
  intros Ho W R Hf. destruct (walk_fl ord Ho fuel (ssize s) s []) as (es & E & P).
  - split; [exact W|exact R].
  - apply dle_size. lia.
  - unfold need. destruct (s_allOf s); lia.
  - exists es. split; [exact E|exact P].
Qed.
Lemma embedded_inv ord fuel s s' es : is_order ord -> schema_wf s -> all_nodes (fun x => k_ref (s_kw x) = None) s -> 2 * ssize s + 2 <= fuel ->
  flatten_embedded ord fuel s = Some (s', es) -> s' = fst (fl fuel s) /\ Permutation es (snd (fl fuel s)).
Proof. intros Ho W R Hf E. destruct (embedded_fl ord fuel s Ho W R Hf) as (es' & E' & P). rewrite E in E'. injection E' as -> ->. auto. Qed.
Lemma plain_refless s : plain s -> all_nodes (fun x => k_ref (s_kw x) = None) s.
Proof. intros H x Hx. apply H, Hx. Qed.

Lemma flatten_det (s : schema) (fuel : nat) :
  schema_wf s -> all_nodes (fun x => k_ref (s_kw x) = None) s -> 2 * ssize s + 2 <= fuel ->
  exists s' es, forall ord, is_order ord -> exists es', flatten_embedded ord fuel s = Some (s', es') /\ Permutation es' es.
Proof. intros W R Hf. exists (fst (fl fuel s)), (snd (fl fuel s)). intros ord Ho. apply embedded_fl; assumption. Qed.

Lemma flatten_equiv (O : oracles) (ord : list string -> list string) (s s' : schema) (fuel : nat) (v : json) :
  is_order ord -> plain s -> 2 * ssize s + 2 <= fuel ->
  flatten_embedded ord fuel s = Some (s', []) -> unmixed s' -> null_free v = true ->
  valid O s' v = valid O s v.
Proof.
  intros Ho P Hf E U N. destruct (embedded_inv ord fuel s s' [] Ho (plain_wf_all s P) (plain_refless s P) Hf E) as [-> Pe].
  apply Permutation_nil in Pe. apply fl_valid; assumption.
Qed.

Lemma flatten_acc (O : oracles) (ord : list string -> list string) (s s' : schema) (es : list terr) (fuel : nat) (v : json) :
  is_order ord -> plain s -> positive s -> 2 * ssize s + 2 <= fuel ->
  flatten_embedded ord fuel s = Some (s', es) -> valid O s v = true -> valid O s' v = true.
Proof.
  intros Ho P Q Hf E V. destruct (embedded_inv ord fuel s s' es Ho (plain_wf_all s P) (plain_refless s P) Hf E) as [-> _].
  apply fl_accepts; [|exact V]. intros x Hx. split; [apply P, Hx|apply Q, Hx].
Qed.

Lemma flatten_rem (ord : list string -> list string) (s s' : schema) (es : list terr) (fuel : nat) :
  is_order ord -> schema_wf s -> all_nodes (fun x => k_ref (s_kw x) = None) s -> 2 * ssize s + 2 <= fuel ->
  flatten_embedded ord fuel s = Some (s', es) ->
  all_nodes (fun x => forall e, In e (s_allOf x) -> remainder_node e) s'.
Proof.
  intros Ho W R Hf E. destruct (embedded_inv ord fuel s s' es Ho W R Hf E) as [-> _].
  apply (fl_remainders fuel (ssize s)); [exact W|apply dle_size; lia|]. unfold need. destruct (s_allOf s); lia.
Qed.

Lemma flatten_doc (ord : list string -> list string) (s s' : schema) (es : list terr) (fuel : nat) :
  is_order ord -> schema_wf s -> all_nodes (fun x => k_ref (s_kw x) = None) s -> 2 * ssize s + 2 <= fuel ->
  flatten_embedded ord fuel s = Some (s', es) ->
  docs_of s' = docs_of s /\
  (s_allOf s = [] -> forall p f, In (p, f) (s_props s) -> exists f', In (p, f') (s_props s') /\ docs_of f' = docs_of f).
Proof.
  intros Ho W R Hf E. destruct (embedded_inv ord fuel s s' es Ho W R Hf E) as [-> _]. split; [exact (fl_docs fuel s)|].
  intros Ha p f Hp. destruct fuel as [|fuel]; [lia|]. exists (fst (fl fuel f)). split; [|exact (fl_docs fuel f)].
  cbn [fl fst]. rewrite av_id by exact Ha. unfold map_children. cbn [s_props]. apply in_map_iff. exists (p, f). auto.
Qed.

Lemma flatten_type_inl lookup env rank id base :
  acyclic_env lookup env rank -> env id = Some base ->
  exists t, inlined lookup env preserve_fields (fst id) base t /\ all_nodes no_ref t /\
  forall ord, is_order ord -> exists F, forall fuel st, F <= fuel -> cache_ok lookup env st ->
    exists st', flatten_type lookup env ord fuel id st = Some (Some t, st') /\ fs_errs st' = fs_errs st /\ cache_ok lookup env st'.
Proof.
  intros Hac Ee. assert (Hid : is_order (fun l : list string => l)) by (intros l; apply Permutation_refl).
  destruct (flatten_type_ok lookup env (fun l => l) Hid rank Hac id base Ee) as (_ & t & Ht & _). exists t. split; [exact Ht|].
  split; [exact (inlined_no_ref lookup env rank Hac (fst id) base t Ht _ (Hac id base Ee))|].
  intros ord Ho. destruct (flatten_type_ok lookup env ord Ho rank Hac id base Ee) as (F & t' & Ht' & H). exists F.
  rewrite (inlined_det lookup env _ _ _ Ht _ Ht') in H. exact H.
Qed.
