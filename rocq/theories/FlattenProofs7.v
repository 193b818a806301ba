(** * Documentation and constraints of inlined references. *)

From Coq Require Import List String ZArith QArith Bool Lia Permutation Arith.
From Verif Require Import GoLib GoLibFacts SchemaModel SchemaFacts WalkModel WalkSpec WalkProofs FlattenModel ValidSpec FlattenSpec.
From Verif Require Import FlattenProofs FlattenProofs2 FlattenProofs3 FlattenProofs4 FlattenProofs5 FlattenProofs6.
Import ListNotations.
Open Scope string_scope.
Open Scope list_scope.
Open Scope nat_scope.

(** ** Flattening keeps the documentation of a node *)
Definition docs (k : kw) := (k_title k, k_desc k, k_example k, k_ext_docs k).
Lemma into_docs src : forall d, docs (s_kw (into d src)) = docs (s_kw d).
Proof.
  induction src as [src IH] using schema_rec_ind. intros dst. rewrite into_eq. cbv zeta.
  transitivity (docs (s_kw (fold_schema (s_allOf src) dst))); [reflexivity|].
  assert (Hin : forall e, In e (s_allOf src) -> In e (children src)) by (intros; apply in_allOf_child; assumption).
  revert dst Hin. generalize (s_allOf src) as l. induction l as [|e l IHl]; intros dst Hin; [reflexivity|].
  rewrite fold_schema_cons. rewrite IHl by auto with datatypes. apply IH. auto with datatypes.
Qed.
Lemma fold_docs l : forall d, docs (s_kw (fold_schema l d)) = docs (s_kw d).
Proof. induction l as [|e l IH]; intros d; [reflexivity|]. rewrite fold_schema_cons, IH. apply into_docs. Qed.
Lemma fl_docs n s : docs (s_kw (fst (fl n s))) = docs (s_kw s).
Proof. destruct n as [|n]; [reflexivity|]. cbn [fl fst]. unfold map_children. cbn [s_kw]. unfold av. rewrite fold_docs. reflexivity. Qed.

(** ** Documentation of inlined nodes *)
Section Docs.
  Variable lookup : string -> string -> option ident.
  Variable env : ident -> option schema.
  Context {A : Type}.
  Variable get : kw -> A.
  Variable zero : A.
  Hypothesis Hown : forall b s, get (s_kw s) <> zero -> get (s_kw (preserve_fields b s)) = get (s_kw s).
  Hypothesis Htype : forall b s, get (s_kw s) = zero -> get (s_kw (preserve_fields b s)) = get (s_kw b).

  Lemma inlined_doc pkg s t : inlined lookup env preserve_fields pkg s t -> forall d, doc_is lookup env get zero pkg s d -> get (s_kw t) = d.
  Proof.
    intros Hi d Hd. revert t Hi. induction Hd as [pkg s H|pkg s H Hn|pkg s r id base d H Hr Hne Hl He Hd IH]; intros t Hi.
    - destruct Hi as [pkg s g Hn' Hc|pkg s r id base b Hr Hne Hl He Hb]; [reflexivity|apply Hown, H].
    - destruct Hi as [pkg s g Hn' Hc|pkg s r id base b Hr Hne Hl He Hb]; [exact H|destruct Hn as [Hn|Hn]; congruence].
    - destruct Hi as [pkg s g Hn' Hc|pkg s r' id' base' b Hr' Hne' Hl' He' Hb]; [destruct Hn' as [Hn|Hn]; congruence|].
      rewrite Htype by exact H. apply IH. assert (r' = r) by congruence. subst r'. assert (id' = id) by congruence. subst id'.
      assert (base' = base) by congruence. subst base'. exact Hb.
  Qed.
End Docs.

Lemma title_own b s : k_title (s_kw s) <> "" -> k_title (s_kw (preserve_fields b s)) = k_title (s_kw s).
Proof. intros H. simpl. apply String.eqb_neq in H. rewrite H. reflexivity. Qed.
Lemma title_type b s : k_title (s_kw s) = "" -> k_title (s_kw (preserve_fields b s)) = k_title (s_kw b).
Proof. intros H. simpl. rewrite H. reflexivity. Qed.
Lemma desc_own b s : k_desc (s_kw s) <> "" -> k_desc (s_kw (preserve_fields b s)) = k_desc (s_kw s).
Proof. intros H. simpl. apply String.eqb_neq in H. rewrite H. reflexivity. Qed.
Lemma desc_type b s : k_desc (s_kw s) = "" -> k_desc (s_kw (preserve_fields b s)) = k_desc (s_kw b).
Proof. intros H. simpl. rewrite H. reflexivity. Qed.
Lemma example_own b s : k_example (s_kw s) <> None -> k_example (s_kw (preserve_fields b s)) = k_example (s_kw s).
Proof. intros H. simpl. destruct (k_example (s_kw s)); congruence. Qed.
Lemma example_type b s : k_example (s_kw s) = None -> k_example (s_kw (preserve_fields b s)) = k_example (s_kw b).
Proof. intros H. simpl. rewrite H. reflexivity. Qed.
Lemma ext_own b s : k_ext_docs (s_kw s) <> None -> k_ext_docs (s_kw (preserve_fields b s)) = k_ext_docs (s_kw s).
Proof. intros H. simpl. destruct (k_ext_docs (s_kw s)); congruence. Qed.
Lemma ext_type b s : k_ext_docs (s_kw s) = None -> k_ext_docs (s_kw (preserve_fields b s)) = k_ext_docs (s_kw b).
Proof. intros H. simpl. rewrite H. reflexivity. Qed.

(** ** Constraints *)
Section Constraints.
  Variable O : oracles.
  Notation valid := (valid O).

  Lemma valid_with_kw O' s k v : ValidSpec.valid O' (with_kw s k) v && kw_ok O' (s_kw s) v = ValidSpec.valid O' s v && kw_ok O' k v.
  Proof.
    destruct s as [k0 it ao oo an nt pr ad pp dp ai df]. unfold with_kw. cbn [s_kw s_items s_allOf s_oneOf s_anyOf s_not s_props s_addl s_patprops s_deps s_addl_items s_defs].
    cbn [ValidSpec.valid]. apply eq_true_iff_eq. rewrite !andb_true_iff. tauto.
  Qed.

  (** A node is its keywords and the rest. *)
  Lemma kw0_ok O' v : kw_ok O' kw0 v = true.
  Proof. destruct v; reflexivity. Qed.
  Lemma valid_rest' O' s v : ValidSpec.valid O' s v = kw_ok O' (s_kw s) v && ValidSpec.valid O' (with_kw s kw0) v.
  Proof. pose proof (valid_with_kw O' s kw0 v) as H. rewrite kw0_ok, andb_true_r in H. rewrite <- H. apply andb_comm. Qed.

  Lemma valid_pair k a b v : valid (Sch k None [a; b] [] [] None [] None [] [] None []) v = kw_ok O k v && (valid a v && valid b v).
  Proof.
    rewrite valid_plain by (simpl; auto). unfold node_ok.
    cbn [s_kw s_items s_allOf s_oneOf s_anyOf s_not s_props s_addl s_deps forallb].
    rewrite andb_true_r. destruct v; cbn; rewrite ?andb_true_r; reflexivity.
  Qed.

  Lemma preserve_pair dst src : exists k, preserve_fields dst src = Sch k None [dst; with_kw src (clear_docs (s_kw src))] [] [] None [] None [] [] None []
    /\ forall v, kw_ok O k v = true.
  Proof. unfold preserve_fields. cbv zeta. unfold set_allOf. cbn [with_kw schema0 s_kw s_items s_allOf s_oneOf s_anyOf s_not s_props s_addl s_patprops s_deps s_addl_items s_defs].
    eexists. split; [reflexivity|]. intros v. destruct v; reflexivity. Qed.

  Lemma kw_ok_refs f k v : k_ref k = None \/ k_ref k = Some "" -> kw_ok O k v = kw_ok (with_refs O f) k v.
  Proof. unfold kw_ok, kw_checks. cbn [forallb]. intros [E|E]; rewrite E; reflexivity. Qed.

  Lemma kw_ok_clear k f v r : k_ref k = Some r -> r <> "" -> kw_ok (with_refs O f) k v = f r v && kw_ok O (clear_docs k) v.
  Proof.
    intros H Hne. rewrite (kw_ok_refs f (clear_docs k)) by (left; reflexivity). unfold kw_ok, kw_checks. cbn [forallb]. rewrite H. apply String.eqb_neq in Hne.
    cbn. rewrite Hne. cbn. apply eq_true_iff_eq. rewrite !andb_true_iff. tauto.
  Qed.

  Lemma inline_valid r f dst src v : k_ref (s_kw src) = Some r -> r <> "" -> children src = [] -> simple_node src -> f r v = valid dst v ->
    valid (preserve_fields dst src) v = ValidSpec.valid (with_refs O f) src v.
  Proof.
    intros Hr Hne Hch [Ht Hp] Hv.
    destruct (preserve_pair dst src) as (k & E & Hk). rewrite E, valid_pair, Hk, andb_true_l, <- Hv. set (O' := with_refs O f).
    assert (Hrest : forall k', k_ref k' = None -> valid (with_kw src k') v = ValidSpec.valid O' (with_kw src k') v).
    { intros k' Hk'. rewrite <- (map_children_id (with_kw src k')) at 1.
      apply (valid_map_children2 O' (fun _ => True)); auto; [apply kw_ok_refs; left; exact Hk'|].
      intros c Hx. change (children (with_kw src k')) with (children src) in Hx. rewrite Hch in Hx. destruct Hx. }
    rewrite Hrest by reflexivity. rewrite (valid_rest' O' src), (valid_rest' O' (with_kw src (clear_docs (s_kw src)))).
    change (with_kw (with_kw src (clear_docs (s_kw src))) kw0) with (with_kw src kw0).
    change (s_kw (with_kw src (clear_docs (s_kw src)))) with (clear_docs (s_kw src)).
    unfold O'. rewrite (kw_ok_clear _ f v r Hr Hne), <- (kw_ok_refs f (clear_docs (s_kw src))) by (left; reflexivity). rewrite andb_assoc. reflexivity.
  Qed.

  Variable lookup : string -> string -> option ident.
  Variable env : ident -> option schema.
  Notation inlined := (inlined lookup env preserve_fields).

  Lemma inlined_valid sem rank : refs_mean O lookup env sem -> acyclic_env lookup env rank ->
    (forall id base, env id = Some base -> all_nodes simple_node base) ->
    forall pkg s t, inlined pkg s t -> forall k, closed_below lookup env rank k pkg s -> all_nodes simple_node s ->
    forall v, valid t v = ValidSpec.valid (with_refs O (sem pkg)) s v.
  Proof.
    intros Href Hac Henv pkg s t H. induction H as [pkg s g Hn Hc IH|pkg s r id base b Hr Hne Hl He Hb IH]; intros k HC Hs v.
    - pose proof (all_nodes_root _ _ Hs) as [H1 H2]. apply (valid_map_children2 _ (fun _ => True)); auto.
      + apply kw_ok_refs. exact Hn.
      + intros c Hx x _. apply (IH c Hx k); eapply all_nodes_child; eauto.
    - pose proof (all_nodes_root _ _ HC) as (_ & _ & Hleaf). destruct (Hleaf r Hr Hne) as [Hch _].
      apply (inline_valid r); auto; [exact (all_nodes_root _ _ Hs)|]. rewrite (Href pkg r id base v Hl He). symmetry.
      apply (IH (rank id)); [exact (Hac id base He)|exact (Henv id base He)].
  Qed.
End Constraints.
