(** * The meaning of references between generated schemas *)
From Coq Require Import List String Ascii Bool ZArith QArith Permutation Relations Lia.
From Verif Require Import GoLib GoLibFacts MapFacts SchemaModel SchemaFacts RefModel ErrorsModel ValidSpec MarkModel MarkSpec StructModel FlattenModel NeedModel FlattenSpec WalkProofs FlattenProofs FlattenProofs2 FlattenProofs3 FlattenProofs4
  FlattenProofs5 FlattenProofs6 FlattenProofs7 StructSpec StructProofs RefProps EmitModel EmitSpec EmitProofs EmitProofs2 EmitProofs3 EmitProofs4.
Import ListNotations.
Open Scope string_scope.
Open Scope list_scope.
Open Scope nat_scope.

Lemma valid_ext O f g s : all_nodes simple_node s -> (forall r v, ref_in r s -> r <> "" -> f r v = g r v) -> forall v, valid (with_refs O f) s v = valid (with_refs O g) s v.
Proof.
  induction s as [s IH] using schema_rec_ind. intros S H v. destruct (all_nodes_root _ _ S) as [S1 S2].
  rewrite <- (map_children_id s) at 1. apply (valid_map_children2 (with_refs O g) (fun _ => True)); auto.
  - unfold kw_ok, kw_checks. cbn [forallb]. destruct (k_ref (s_kw s)) as [r|] eqn:E; [|reflexivity]. cbn [o_ref with_refs].
    cbn [opt_ok]. destruct (String.eqb r "") eqn:Er; [reflexivity|]. rewrite (H r v); [reflexivity|apply ref_here, E|apply String.eqb_neq, Er].
  - intros c Hc x _. apply IH; [exact Hc|eapply all_nodes_child; eassumption|]. intros r w K. apply H. eapply ref_below; eassumption.
Qed.
Lemma with_refs_self O : with_refs O (o_ref O) = O.
Proof. destruct O. reflexivity. Qed.
Lemma with_refs_twice O f g : with_refs (with_refs O f) g = with_refs O g.
Proof. reflexivity. Qed.
Lemma ref_node_in r s : ref_in r s -> exists x, In x (subschemas s) /\ k_ref (s_kw x) = Some r.
Proof. induction 1 as [s K|s c C _ (x & I & K)]; [exists s; split; [apply subschemas_self|exact K]|]. exists x. split; [eapply subschemas_child; eassumption|exact K]. Qed.
Lemma node_ref_in r x : forall s, In x (subschemas s) -> k_ref (s_kw x) = Some r -> ref_in r s.
Proof.
  intros s. induction s as [s IH] using schema_rec_ind. intros I K. apply subschemas_inv in I as [->|(c & C & I)]; [apply ref_here, K|]. eapply ref_below; [exact C|]. apply IH; assumption.
Qed.

Section Meaning.
  Variable order : marker_values -> marker_values.
  Variable sorted : list (string * smarker) -> list (string * smarker).
  Hypothesis Ho : is_order order.
  Hypothesis Hs : sorts sorted.
  Variable allow_dangerous ig : bool.
  Variable imports : string -> string -> bool.
  Variable pkg_markers : string -> marker_values.
  Variable types : ident -> option tinfo.
  Variable presets : string -> list (string * schema).
  Variable O : oracles.
  Variable root : ident.
  Variable rank : ident -> nat.
  Notation preset id := (mget String.eqb (presets (fst id)) (snd id)).
  Notation needed := (needed order sorted allow_dangerous ig imports pkg_markers types presets).
  Notation schema_of := (schema_of order sorted allow_dangerous ig imports pkg_markers types presets).
  Notation GEN := (generated order sorted allow_dangerous ig imports pkg_markers).
  Notation CONF := (conforms O ig pkg_markers types presets).
  Notation refs_are := (refs_are ig pkg_markers types presets O).
  Notation renames := (renames order sorted allow_dangerous ig imports pkg_markers types).
  Notation FR := (find_ref imports).
  Hypothesis T : tame order sorted allow_dangerous ig imports pkg_markers types presets root rank.
  Definition all_made : Prop := forall id, needed [root] id -> preset id = None -> exists ti s reqs, types id = Some ti /\ GEN id ti = Done s reqs [].
  Hypothesis Hok : all_made.
  Variable env : ident -> option schema.
  Hypothesis Henv : forall id s, env id = Some s <-> schema_of id = Some s /\ (needed [root] id \/ (preset id <> None /\ exists id', needed [root] id' /\ fst id' = fst id)).

  Lemma env_cases id s : env id = Some s -> (preset id = Some s /\ plain s) \/
    (preset id = None /\ needed [root] id /\ exists ti reqs, types id = Some ti /\ GEN id ti = Done s reqs []).
  Proof.
    intros H. apply Henv in H as [S N]. unfold StructSpec.schema_of in S. destruct (preset id) as [x|] eqn:P.
    - left. injection S as ->. split; [reflexivity|]. eapply (tame_sets _ _ _ _ _ _ _ _ _ _ T), P.
    - right. split; [reflexivity|]. destruct N as [N|[[] _]]; [|reflexivity]. split; [exact N|]. destruct (Hok id N P) as (ti & s' & reqs & E & G). rewrite E, G in S. injection S as ->. eauto.
  Qed.
  Lemma env_needed id : needed [root] id -> exists s, env id = Some s.
  Proof.
    intros N. destruct (preset id) as [x|] eqn:P.
    - exists x. apply Henv. split; [|left; exact N]. unfold StructSpec.schema_of. rewrite P. reflexivity.
    - destruct (Hok id N P) as (ti & s & reqs & E & G). exists s. apply Henv. split; [|left; exact N]. unfold StructSpec.schema_of. rewrite P, E, G. reflexivity.
  Qed.
  Lemma tame_un ms : tame_markers ms -> unexclusive ms.
  Proof. intros [_ H]. exact H. Qed.
  Lemma gen_fine id ti s reqs : needed [root] id -> preset id = None -> types id = Some ti -> GEN id ti = Done s reqs [] -> good s /\ Forall (imported (imports (fst id))) reqs.
  Proof.
    intros N P E G. destruct (tame_types _ _ _ _ _ _ _ _ _ _ T id ti N P E) as (U & F & _).
    pose proof (info_fine order sorted Ho Hs (imports (fst id)) allow_dangerous ig (pkg_markers (fst id)) ti (tame_un _ U)) as K. unfold generated in G. rewrite G in K. apply K.
    eapply Forall_impl; [|exact F]. intros f. apply tame_un.
  Qed.
  Lemma plain_gnode x : plain_node x -> gnode x.
  Proof. intros (W & R & X1 & X2 & I & P & A). unfold gnode, simple_node. rewrite R. repeat split; try tauto; try apply W; try congruence. Qed.
  Lemma env_good id s : env id = Some s -> good s.
  Proof.
    intros H. destruct (env_cases _ _ H) as [[_ P]|(P & N & ti & reqs & E & G)]; [intros x I; apply plain_gnode, P, I|]. apply (gen_fine _ _ _ _ N P E G).
  Qed.
  Lemma good_simple s : good s -> all_nodes simple_node s.
  Proof. intros H x I. apply (H x I). Qed.
  Lemma env_simple id s : env id = Some s -> all_nodes simple_node s.
  Proof. intros H. apply good_simple, (env_good _ _ H). Qed.

  Lemma request_found id ti s reqs p n : needed [root] id -> preset id = None -> types id = Some ti -> GEN id ti = Done s reqs [] -> In (p, n) reqs ->
    needed [root] (target id (p, n)) /\ FR (type_ref_link p n) (fst id) = Some (target id (p, n)) /\ refers (fst id) (type_ref_link p n) (target id (p, n)) /\ rank (target id (p, n)) < rank id.
  Proof.
    intros N P E G I. assert (N' : needed [root] (target id (p, n))) by (eapply needed_by; eassumption). split; [exact N'|].
    assert (Lt : rank (target id (p, n)) < rank id). { apply (tame_rank _ _ _ _ _ _ _ _ _ _ T); auto. exists ti, s, reqs, [], (p, n). auto. }
    destruct (gen_fine _ _ _ _ N P E G) as [_ F]. rewrite Forall_forall in F. specialize (F _ I). destruct (tame_names _ _ _ _ _ _ _ _ _ _ T _ N') as [Hp Hn]. unfold target in *. cbn [fst snd] in *.
    assert (Hp' : has_char "~" p = false) by (destruct (String.eqb p "") eqn:E0; [apply String.eqb_eq in E0; subst; reflexivity|exact Hp]).
    repeat split; [| |exact Lt].
    - unfold find_ref. rewrite (ref_round_trip p n Hp' Hn). destruct (String.eqb p "") eqn:E0; [reflexivity|]. apply String.eqb_neq in E0. destruct F as [F|F]; cbn in F; [congruence|]. rewrite F. reflexivity.
    - exists p. split; [reflexivity|]. cbn. destruct (String.eqb p "") eqn:E0; [apply String.eqb_eq in E0|apply String.eqb_neq in E0]; auto.
  Qed.
  Lemma env_refs id s r : env id = Some s -> ref_in r s -> exists id', needed [root] id /\ needed [root] id' /\ FR r (fst id) = Some id' /\ refers (fst id) r id' /\ rank id' < rank id /\ r <> "" /\ (k_ref (s_kw s) = Some r -> renames id id').
  Proof.
    intros H R. pose proof (proj1 (Henv _ _) H) as [S _]. destruct (env_cases _ _ H) as [[_ P]|(P & N & ti & reqs & E & G)].
    - apply ref_node_in in R as (x & I & K). destruct (P x I) as (_ & K' & _). congruence.
    - pose proof (info_sound order sorted Ho Hs (imports (fst id)) allow_dangerous ig (pkg_markers (fst id)) ti) as D. unfold generated in G. rewrite G in D.
      destruct (D r R) as (p & n & -> & I). destruct (request_found _ _ _ _ _ _ N P E G I) as (N' & F & Rf & Lt). exists (target id (p, n)). repeat split; auto; [discriminate|]. intros K. exists ti, s, reqs, [], p, n. repeat split; assumption.
  Qed.

  (** ** Chains of names *)
  Notation links := (alias_links FR env).
  Lemma refers_apart pkg pkg' r r' id id' : needed [root] id -> needed [root] id' -> refers pkg r id -> refers pkg' r' id' -> snd id <> snd id' -> r <> r'.
  Proof.
    intros N N' (p & -> & Hp) (p' & -> & Hp') D E. destruct (tame_names _ _ _ _ _ _ _ _ _ _ T _ N) as [A1 A2]. destruct (tame_names _ _ _ _ _ _ _ _ _ _ T _ N') as [B1 B2].
    apply ref_links_distinct in E as [_ E]; auto; [destruct Hp as [[-> _]|[_ <-]]|destruct Hp' as [[-> _]|[_ <-]]]; auto.
  Qed.
  Lemma chain_links n : forall id base, needed [root] id -> env id = Some base -> NoDup (links n (fst id) base) /\
    forall r, In r (links n (fst id) base) -> exists id' pkg, clos_trans _ renames id id' /\ needed [root] id' /\ refers pkg r id'.
  Proof.
    induction n as [|n IH]; intros id base N H; [split; [constructor|intros r []]|]. cbn [alias_links].
    destruct (k_ref (s_kw base)) as [[|a r]|] eqn:K; try solve [split; [constructor|intros ? []]].
    destruct (env_refs id base (String a r) H (ref_here _ _ K)) as (id1 & _ & N1 & F & R & _ & _ & Rn). specialize (Rn K). rewrite F. destruct (env_needed id1 N1) as (b1 & H1). rewrite H1.
    destruct (IH id1 b1 N1 H1) as [D L]. split.
    - constructor; [|exact D]. intros I. destruct (L _ I) as (id2 & pkg & C & N2 & R2).
      exact (refers_apart _ _ _ _ _ _ N1 N2 R R2 (tame_chain _ _ _ _ _ _ _ _ _ _ T id1 id2 N1 C) eq_refl).
    - intros r' [<-|I]; [exists id1, (fst id); repeat split; auto; apply t_step, Rn|]. destruct (L _ I) as (id2 & pkg & C & N2 & R2). exists id2, pkg. repeat split; auto. eapply t_trans; [apply t_step, Rn|exact C].
  Qed.
  Lemma node_links n id base x : env id = Some base -> In x (subschemas base) -> NoDup (links n (fst id) x).
  Proof.
    intros H I. destruct n as [|n]; [constructor|]. cbn [alias_links]. destruct (k_ref (s_kw x)) as [[|a r]|] eqn:K; try constructor.
    all: destruct (env_refs id base (String a r) H (node_ref_in _ _ _ I K)) as (id1 & _ & N1 & F & R & _ & _); rewrite F; destruct (env_needed id1 N1) as (b1 & H1); rewrite H1; destruct (chain_links n id1 b1 N1 H1) as [D L].
    - intros I'. destruct (L _ I') as (id2 & pkg & C & N2 & R2). exact (refers_apart _ _ _ _ _ _ N1 N2 R R2 (tame_chain _ _ _ _ _ _ _ _ _ _ T id1 id2 N1 C) eq_refl).
    - exact D.
  Qed.
  Lemma env_acyclic : acyclic_env FR env rank.
  Proof.
    intros id base H x I. destruct (env_good _ _ H x I) as (W & _ & _ & _ & _ & _ & L). split; [exact W|]. split; [intros n; apply (node_links n id base); assumption|].
    intros r K _. split; [apply L; congruence|]. destruct (env_refs id base r H (node_ref_in _ _ _ I K)) as (id1 & _ & N1 & F & R & Lt & _). destruct (env_needed id1 N1) as (b1 & H1). exists id1, b1. auto.
  Qed.

  (** ** Meaning *)
  Fixpoint semn (n : nat) (id : ident) (v : json) : bool :=
    match n with
    | 0 => false
    | S n => match env id with
             | Some s => valid (with_refs O (fun r w => match FR r (fst id) with Some id' => semn n id' w | None => false end)) s v
             | None => false
             end
    end.
  Definition sem (pkg r : string) (v : json) : bool := match FR r pkg with Some id => semn (S (rank id)) id v | None => false end.
  Lemma semn_stable n : forall m id v, rank id < n -> rank id < m -> semn n id v = semn m id v.
  Proof.
    induction n as [|n IH]; intros m id v L1 L2; [lia|]. destruct m as [|m]; [lia|]. cbn [semn]. destruct (env id) as [s|] eqn:H; [|reflexivity].
    apply valid_ext; [apply (env_simple _ _ H)|]. intros r w R _. destruct (env_refs id s r H R) as (id1 & _ & N1 & F & _ & Lt & _). rewrite F. apply IH; lia.
  Qed.
  Lemma sem_mean : refs_mean O FR env sem.
  Proof.
    intros pkg r id base v F H. unfold sem at 1. rewrite F. cbn [semn]. rewrite H. apply valid_ext; [apply (env_simple _ _ H)|].
    intros r' w R _. unfold sem. destruct (env_refs id base r' H R) as (id1 & _ & N1 & F1 & _ & Lt & _). rewrite F1. apply semn_stable; lia.
  Qed.
  Lemma plain_refs f s v : plain s -> valid (with_refs O f) s v = valid O s v.
  Proof.
    intros P. rewrite <- (with_refs_self O) at 2. apply valid_ext; [intros x I; split; apply (P x I)|]. intros r w R _. apply ref_node_in in R as (x & I & K). destruct (P x I) as (_ & K' & _). congruence.
  Qed.
  Lemma schema_conforms k : forall id s v, rank id < k -> needed [root] id -> env id = Some s -> null_free v = true -> (valid (with_refs O (sem (fst id))) s v = true <-> CONF id v).
  Proof.
    induction k as [|k IH]; intros id s v L N H Nv; [lia|]. destruct (env_cases _ _ H) as [[Pr P]|(Pr & _ & ti & reqs & E & G)].
    - rewrite (plain_refs _ _ _ P). split; [intros V; eapply con_set; eassumption|]. intros C. inversion C; subst; congruence.
    - apply (info_fits order sorted Ho Hs allow_dangerous ig imports pkg_markers types presets O id (sem (fst id)) ti s reqs v Pr E (tame_types _ _ _ _ _ _ _ _ _ _ T id ti N Pr E) G); [|exact Nv].
      intros p n w I Nw. destruct (request_found _ _ _ _ _ _ N Pr E G I) as (N' & F & R & Lt). destruct (env_needed _ N') as (s' & H').
      rewrite (sem_mean _ _ _ _ w F H'). apply (IH (target id (p, n)) s' w); auto. lia.
  Qed.
End Meaning.
