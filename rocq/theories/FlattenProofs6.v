(** * Flattener: inlining references. *)

From Coq Require Import List String ZArith QArith Bool Lia Permutation Arith.
From Verif Require Import GoLib GoLibFacts SchemaModel SchemaFacts WalkModel WalkSpec WalkProofs FlattenModel FlattenSpec.
From Verif Require Import FlattenProofs FlattenProofs5.
Import ListNotations.
Open Scope string_scope.
Open Scope list_scope.
Open Scope nat_scope.

Lemma ident_eqb_eq a b : ident_eqb a b = true <-> a = b.
Proof.
  unfold ident_eqb. destruct a as [a1 a2], b as [b1 b2]. simpl. rewrite andb_true_iff, !String.eqb_eq. split; [intros [-> ->]; reflexivity|intros [= -> ->]; auto].
Qed.
Lemma ident_dec (a b : ident) : {a = b} + {a <> b}.
Proof. decide equality; apply string_dec. Qed.
Lemma iget_put_eq (A : Type) (m : list (ident * A)) k v : mget ident_eqb (mset ident_eqb m k v) k = Some v.
Proof.
  induction m as [|[k' v'] m IH]; simpl; [rewrite (proj2 (ident_eqb_eq k k) eq_refl); reflexivity|].
  destruct (ident_eqb k k') eqn:E; simpl; rewrite E; [reflexivity|exact IH].
Qed.
Lemma iget_put_neq (A : Type) (m : list (ident * A)) k k' v : k' <> k -> mget ident_eqb (mset ident_eqb m k v) k' = mget ident_eqb m k'.
Proof.
  intros Hn. induction m as [|[k0 v0] m IH]; simpl.
  - destruct (ident_eqb k' k) eqn:E; [apply ident_eqb_eq in E; congruence|reflexivity].
  - destruct (ident_eqb k k0) eqn:E; simpl.
    + apply ident_eqb_eq in E. subst k0. destruct (ident_eqb k' k) eqn:E'; [apply ident_eqb_eq in E'; congruence|reflexivity].
    + destruct (ident_eqb k' k0); [reflexivity|exact IH].
Qed.

Section Ref.
  Variable lookup : string -> string -> option ident.
  Variable env : ident -> option schema.
  Variable ord : list string -> list string.
  Hypothesis Hord : is_order ord.
  Notation inlined := (inlined lookup env preserve_fields).
  Notation alias_links := (alias_links lookup env).

  Lemma inlined_det pkg s t : inlined pkg s t -> forall t', inlined pkg s t' -> t' = t.
  Proof.
    induction 1 as [pkg s g Hn Hc IH|pkg s r id base b Hr Hne Hl He Hb IH]; intros t' H'; inversion H'; subst.
    - apply map_children_ext. intros c Hx. apply IH; auto.
    - destruct Hn as [Hn|Hn]; congruence.
    - match goal with H : no_ref s |- _ => destruct H as [Hn|Hn]; congruence end.
    - assert (r0 = r) by congruence. subst r0. assert (id0 = id) by congruence. subst id0. assert (base0 = base) by congruence. subst base0.
      f_equal. apply IH. assumption.
  Qed.

  (** References removed, with fuel. *)
  Fixpoint expand (n : nat) (pkg : string) (s : schema) : schema :=
    match n with
    | 0 => s
    | S n' =>
        match k_ref (s_kw s) with
        | Some (String _ _ as r) =>
            match lookup r pkg with
            | Some id => match env id with Some base => preserve_fields (expand n' (fst id) base) s | None => s end
            | None => s
            end
        | _ => map_children (expand n' pkg) s
        end
    end.

  Variable rank : ident -> nat.
  Hypothesis Hacyc : acyclic_env lookup env rank.
  Notation closed k pkg s := (closed_below lookup env rank k pkg s).

  Definition correct (id : ident) (cs : schema) : Prop := exists base, env id = Some base /\ inlined (fst id) base cs.
  Definition Inv (k : nat) (st : fstate) : Prop := forall id cs, mget ident_eqb (fs_cache st) id = Some cs -> rank id < k -> correct id cs.
  Definition upd (st st' : fstate) : Prop :=
    fs_errs st' = fs_errs st /\
    forall id, mget ident_eqb (fs_cache st') id = mget ident_eqb (fs_cache st) id \/ exists cs, mget ident_eqb (fs_cache st') id = Some cs /\ correct id cs.

  Lemma upd_refl st : upd st st.
  Proof. split; auto. Qed.
  Lemma upd_trans a b c : upd a b -> upd b c -> upd a c.
  Proof.
    intros [E1 H1] [E2 H2]. split; [congruence|]. intros id. destruct (H2 id) as [E|H]; [|right; exact H].
    rewrite E. apply H1.
  Qed.
  Lemma upd_inv k st st' : Inv k st -> upd st st' -> Inv k st'.
  Proof.
    intros H [_ U] id cs E Hr. destruct (U id) as [E'|(cs' & E' & C)]; [|congruence]. apply H; [|exact Hr]. rewrite <- E'. exact E.
  Qed.
  Lemma chain_upd cs : forall st st', chain (fun _ => upd) cs st st' -> upd st st'.
  Proof. induction cs as [|c cs IH]; simpl; intros st st' H; [subst; apply upd_refl|]. destruct H as (st1 & H1 & H2). eapply upd_trans; eauto. Qed.

  Notation visit := (fv_visit lookup env).
  Notation walkf := (walk visit fv_finish ord).
  Notation close := (close_all fvisitor fstate fv_finish).

  Definition run (f1 f2 : nat) (v : fvisitor) (s : schema) (seen : list string) (opened : list fvisitor) (st : fstate) : option (schema * fstate) :=
    match open_loop fvisitor fstate visit f1 v s seen opened st with
    | None => None
    | Some (s1, st1, op, None) => Some (close op s1 st1)
    | Some (s1, st1, op, Some v1) =>
        match walk_children ord (walkf f2 v1) s1 st1 with
        | None => None
        | Some (s2, st2) => Some (close op s2 st2)
        end
    end.
  Definition seen0 (s : schema) : list string := match k_ref (s_kw s) with Some r => [r] | None => [] end.
  Lemma walk_run f v s st : walkf (S f) v s st = run (S f) f v s (seen0 s) [] st.
  Proof. reflexivity. Qed.

  Definition good_run (k F : nat) (pkg : string) (s : schema) : Prop :=
    (forall n, F <= n -> inlined pkg s (expand n pkg s)) /\
    (forall t, inlined pkg s t ->
      (forall f1 f2 v seen opened st, F <= f1 -> F <= f2 -> fv_pkg v = pkg -> Inv k st ->
         (forall n x, In x (tl (alias_links n pkg s)) -> ~ In x seen) ->
         exists st', run f1 f2 v s seen opened st = Some (close opened t st') /\ upd st st') /\
      (no_ref s -> forall f2 v st, F <= f2 -> fv_pkg v = pkg -> Inv k st ->
         exists st', walk_children ord (walkf f2 v) s st = Some (t, st') /\ upd st st')).

  Lemma good_run_mono k F F' pkg s : F <= F' -> good_run k F pkg s -> good_run k F' pkg s.
  Proof.
    intros HF [H1 H2]. split; [intros n Hn; apply H1; lia|]. intros t Ht. destruct (H2 t Ht) as [H3 H4]. split.
    - intros f1 f2 v seen opened st L1 L2. apply H3; lia.
    - intros Hn f2 v st L2. apply H4; [exact Hn|lia].
  Qed.

  Lemma finite_bound (A : Type) (P : nat -> A -> Prop) l : (forall x n m, n <= m -> P n x -> P m x) ->
    (forall x, In x l -> exists n, P n x) -> exists n, forall x, In x l -> P n x.
  Proof.
    intros Hm. induction l as [|y l IH]; intros H; [exists 0; intros x []|].
    destruct IH as [n Hn]; [intros; apply H; right; assumption|]. destruct (H y (or_introl eq_refl)) as [m Hy].
    exists (max n m). intros x [<-|Hx]; [eapply Hm; [|exact Hy]; lia|eapply Hm; [|apply Hn, Hx]; lia].
  Qed.

  Lemma links_ref n pkg s a r id base : k_ref (s_kw s) = Some (String a r) -> lookup (String a r) pkg = Some id -> env id = Some base ->
    alias_links (S n) pkg s = String a r :: alias_links n (fst id) base.
  Proof. intros E1 E2 E3. cbn [FlattenSpec.alias_links]. rewrite E1, E2, E3. reflexivity. Qed.

  Lemma no_ref_case s : no_ref s \/ exists a r, k_ref (s_kw s) = Some (String a r).
  Proof. unfold no_ref. destruct (k_ref (s_kw s)) as [[|a r]|]; eauto. Qed.
  Lemma expand_node n pkg s : no_ref s -> expand (S n) pkg s = map_children (expand n pkg) s.
  Proof. intros [E|E]; cbn [expand]; rewrite E; reflexivity. Qed.

  Lemma good_exists : forall k pkg s, closed k pkg s -> exists F, good_run k F pkg s.
  Proof.
    induction k as [k IHk] using lt_wf_ind. intros pkg s. induction s as [s IHs] using schema_rec_ind. intros HC.
    pose proof (all_nodes_root _ _ HC) as (Hwf & Hnd & Hleaf).
    destruct (no_ref_case s) as [Hn|(a & r & Er)].
    - destruct (finite_bound schema (fun F c => good_run k F pkg c) (children s)) as [F HF].
      { intros x n m Hle. apply good_run_mono, Hle. }
      { intros c Hc. apply IHs; [exact Hc|]. eapply all_nodes_child; [exact HC|exact Hc]. }
      exists (S F).
      assert (Hexp : forall n, S F <= n -> inlined pkg s (expand n pkg s)).
      { intros n Hle. destruct n as [|n]; [lia|]. rewrite expand_node by exact Hn. apply inl_node; [exact Hn|]. intros c Hc. apply (HF c Hc). lia. }
      assert (Hwalk : forall t, inlined pkg s t -> forall f2 v st, S F <= f2 -> fv_pkg v = pkg -> Inv k st ->
         exists st', walk_children ord (walkf f2 v) s st = Some (t, st') /\ upd st st').
      { intros t Ht f2 v st L Hv HI. destruct f2 as [|f2]; [lia|].
        destruct (walk_children_inv fstate (walkf (S f2) v) (expand F pkg) (fun _ => upd) ord Hord (Inv k) (fun _ st st' => upd_inv k st st') s st HI Hwf)
          as (st' & cs & E & _ & Hch).
        - intros c Hc st0 HI0. destruct (HF c Hc) as [Hx Hr]. specialize (Hx F (le_n F)). destruct (Hr _ Hx) as [Hrun _].
          destruct (Hrun (S f2) f2 v (seen0 c) [] st0) as (st' & E & U); auto; try lia.
          + intros n x Hin Hs. assert (Cc : closed k pkg c) by (eapply all_nodes_child; eauto).
            pose proof (all_nodes_root _ _ Cc) as (_ & Nd & _). specialize (Nd n). unfold seen0 in Hs.
            destruct n as [|n]; [destruct Hin|]. cbn [FlattenSpec.alias_links] in *. destruct (k_ref (s_kw c)) as [[|a r]|]; try (destruct Hin; fail).
            destruct Hs as [<-|[]]. inversion Nd; subst. contradiction.
          + exists st'. rewrite walk_run. split; [exact E|exact U].
        - exists st'. split; [|apply chain_upd in Hch; exact Hch]. rewrite E. f_equal. f_equal.
          apply (inlined_det pkg s t Ht). apply inl_node; [exact Hn|]. intros c Hc. apply (HF c Hc). lia. }
      split; [exact Hexp|]. intros t Ht. split; [|intros _; exact (Hwalk t Ht)].
      intros f1 f2 v seen opened st L1 L2 Hv HI _. unfold run. destruct f1 as [|f1]; [lia|]. cbn [open_loop].
      set (v' := match fv_type v with Some _ => mkFv (fv_pkg v) None schema0 | None => v end).
      assert (Evis : visit v s st = (s, st, Some v')).
      { unfold fv_visit. destruct Hn as [E|E]; rewrite E; reflexivity. }
      assert (Hv' : fv_pkg v' = pkg /\ fv_type v' = None) by (unfold v'; destruct (fv_type v) eqn:E; auto).
      rewrite Evis.
      assert (Ho : match k_ref (s_kw s) with
                   | None => Some (s, st, v' :: opened, Some v')
                   | Some ref => if (ref =? "")%string || mem_str ref seen then Some (s, st, v' :: opened, Some v')
                                 else open_loop fvisitor fstate visit f1 v' s (ref :: seen) (v' :: opened) st
                   end = Some (s, st, v' :: opened, Some v')).
      { destruct Hn as [E|E]; rewrite E; reflexivity. }
      rewrite Ho. destruct (Hwalk t Ht f2 v' st L2 (proj1 Hv') HI) as (st' & E & U). rewrite E. exists st'. split; [|exact U].
      cbn [close_all]. unfold fv_finish at 1. rewrite (proj2 Hv'). reflexivity.
    - assert (Hne : String a r <> "") by discriminate. destruct (Hleaf _ Er Hne) as (Hch & id & base & El & Ee & Hrk).
      destruct (IHk (rank id) Hrk (fst id) base (Hacyc id base Ee)) as [F HF]. exists (S F). destruct HF as [HF1 HF2]. split.
      + intros n Hle. destruct n as [|n]; [lia|]. cbn [expand]. rewrite Er, El, Ee. eapply inl_ref; eauto. apply HF1. lia.
      + intros t Ht. split; [|intros [E|E]; congruence].
        assert (Hbt : exists tb, inlined (fst id) base tb /\ t = preserve_fields tb s).
        { exists (expand F (fst id) base). assert (inlined (fst id) base (expand F (fst id) base)) by (apply HF1; lia). split; [assumption|].
          symmetry. eapply inlined_det; [exact Ht|]. eapply inl_ref; eauto. }
        destruct Hbt as (tb & Htb & ->). destruct (HF2 tb Htb) as [Hrun Hwalk].
        intros f1 f2 v seen opened st L1 L2 Hv HI Hseen. unfold run. destruct f1 as [|f1]; [lia|]. cbn [open_loop].
        destruct (mget ident_eqb (fs_cache st) id) as [cs|] eqn:Ec.
        * assert (Evis : visit v s st = (preserve_fields cs s, st, None)) by (unfold fv_visit; rewrite Er, Hv, El, Ec; reflexivity).
          rewrite Evis. destruct (HI id cs Ec Hrk) as (base' & Eb & Hi). assert (base' = base) by congruence. subst base'.
          rewrite (inlined_det _ _ _ Htb _ Hi). exists st. split; [reflexivity|apply upd_refl].
        * set (v1 := mkFv (fst id) (Some id) s). set (st1 := fs_put st id schema0).
          assert (Evis : visit v s st = (base, st1, Some v1)) by (unfold fv_visit; rewrite Er, Hv, El, Ec, Ee; reflexivity).
          rewrite Evis.
          assert (HI1 : Inv (rank id) st1).
          { intros id' cs' E' Hr'. unfold st1, fs_put in E'. simpl in E'. destruct (ident_dec id' id) as [->|Hd]; [lia|].
            rewrite iget_put_neq in E' by exact Hd. apply HI; [exact E'|lia]. }
          assert (Hfin : forall st2, upd st1 st2 -> upd st (fs_put st2 id tb)).
          { intros st2 [U1 U2]. split; [exact U1|]. intros id'. unfold fs_put. simpl. destruct (ident_dec id' id) as [->|Hd].
            - right. exists tb. rewrite iget_put_eq. split; [reflexivity|]. exists base. auto.
            - rewrite iget_put_neq by exact Hd. destruct (U2 id') as [E'|H']; [|right; exact H']. left. rewrite E'. unfold st1, fs_put. simpl.
              apply iget_put_neq, Hd. }
          destruct (no_ref_case base) as [Hnb|(a1 & r1 & Er1)].
          -- assert (Ho : match k_ref (s_kw base) with
                   | None => Some (base, st1, v1 :: opened, Some v1)
                   | Some ref => if (ref =? "")%string || mem_str ref seen then Some (base, st1, v1 :: opened, Some v1)
                                 else open_loop fvisitor fstate visit f1 v1 base (ref :: seen) (v1 :: opened) st1
                   end = Some (base, st1, v1 :: opened, Some v1)).
             { destruct Hnb as [E|E]; rewrite E; reflexivity. }
             rewrite Ho. destruct (Hwalk Hnb f2 v1 st1) as (st2 & E2 & U2); [lia|reflexivity|exact HI1|]. rewrite E2.
             exists (fs_put st2 id tb). split; [reflexivity|apply Hfin, U2].
          -- rewrite Er1. assert (Hns : mem_str (String a1 r1) seen = false).
             { apply mem_str_false. apply (Hseen 2). rewrite (links_ref 1 pkg s a r id base Er El Ee). cbn [tl FlattenSpec.alias_links]. rewrite Er1. left; reflexivity. }
             rewrite Hns. cbn [String.eqb orb].
             destruct (Hrun f1 f2 v1 (String a1 r1 :: seen) (v1 :: opened) st1) as (st2 & E2 & U2); [lia|lia|reflexivity|exact HI1| |].
             { intros n x Hin [<-|Hs].
               - specialize (Hnd (S n)). rewrite (links_ref n pkg s a r id base Er El Ee) in Hnd. inversion Hnd as [|? ? _ Hnd']; subst.
                 destruct n as [|n]; [destruct Hin|]. cbn [FlattenSpec.alias_links] in *. rewrite Er1 in *. cbn [tl] in Hin. inversion Hnd'; subst. contradiction.
               - apply (Hseen (S n) x); [|exact Hs]. rewrite (links_ref n pkg s a r id base Er El Ee). cbn [tl].
                 destruct (alias_links n (fst id) base); [destruct Hin|right; exact Hin]. }
             exists (fs_put st2 id tb). split; [|apply Hfin, U2]. unfold run in E2. exact E2.
  Qed.

  (** Cache entries are correct. *)
  Definition cache_ok (st : fstate) : Prop := forall id cs, mget ident_eqb (fs_cache st) id = Some cs -> correct id cs.

  Lemma flatten_schema_ok k pkg s : closed k pkg s -> exists F t, inlined pkg s t /\
    forall fuel st, F <= fuel -> cache_ok st ->
      exists st', flatten_schema lookup env ord fuel s pkg st = Some (t, st') /\ fs_errs st' = fs_errs st /\ cache_ok st'.
  Proof.
    intros HC. destruct (good_exists k pkg s HC) as [F [HF1 HF2]]. exists (S F), (expand F pkg s). pose proof (HF1 F (le_n F)) as Ht.
    split; [exact Ht|]. intros fuel st Hf Hst. destruct fuel as [|f]; [lia|]. destruct (HF2 _ Ht) as [Hrun _].
    destruct (Hrun (S f) f (mkFv pkg None schema0) (seen0 s) [] st) as (st' & E & U); [lia|lia|reflexivity| | |].
    - intros id cs E _. apply Hst, E.
    - intros n x Hin Hs. pose proof (all_nodes_root _ _ HC) as (_ & Nd & _). specialize (Nd n). unfold seen0 in Hs.
      destruct n as [|n]; [destruct Hin|]. cbn [FlattenSpec.alias_links] in *. destruct (k_ref (s_kw s)) as [[|a r]|]; try (destruct Hin; fail).
      destruct Hs as [<-|[]]. inversion Nd; subst. contradiction.
    - exists st'. split; [unfold flatten_schema; rewrite walk_run; exact E|]. destruct U as [U1 U2]. split; [exact U1|].
      intros id cs E'. destruct (U2 id) as [E2|(cs' & E2 & C)]; [apply Hst; congruence|congruence].
  Qed.

  Lemma flatten_type_ok id base : env id = Some base -> exists F t, inlined (fst id) base t /\
    forall fuel st, F <= fuel -> cache_ok st ->
      exists st', flatten_type lookup env ord fuel id st = Some (Some t, st') /\ fs_errs st' = fs_errs st /\ cache_ok st'.
  Proof.
    intros Ee. destruct (flatten_schema_ok (rank id) (fst id) base (Hacyc id base Ee)) as (F & t & Ht & H). exists F, t. split; [exact Ht|].
    intros fuel st Hf Hst. unfold flatten_type. destruct (mget ident_eqb (fs_cache st) id) as [cs|] eqn:Ec.
    - destruct (Hst id cs Ec) as (base' & Eb & Hi). assert (base' = base) by congruence. subst base'. rewrite (inlined_det _ _ _ Ht _ Hi). exists st. auto.
    - rewrite Ee. destruct (H fuel st Hf Hst) as (st' & E & E1 & Hok). rewrite E. exists (fs_put st' id t). split; [reflexivity|]. split; [exact E1|].
      intros id' cs'. unfold fs_put. simpl. destruct (ident_dec id' id) as [->|Hd].
      + rewrite iget_put_eq. intros [= <-]. exists base. auto.
      + rewrite iget_put_neq by exact Hd. apply Hok.
  Qed.

  Lemma inlined_no_ref pkg s t : inlined pkg s t -> forall k, closed k pkg s -> all_nodes no_ref t.
  Proof.
    induction 1 as [pkg s g Hn Hc IH|pkg s r id base b Hr Hne Hl He Hb IH]; intros k HC.
    - apply all_nodes_intro; [exact Hn|]. intros c Hx. rewrite children_map_children in Hx. apply in_map_iff in Hx as (c' & <- & Hx).
      apply (IH c' Hx k). eapply all_nodes_child; eauto.
    - pose proof (all_nodes_root _ _ HC) as (_ & _ & Hleaf). destruct (Hleaf r Hr Hne) as [Hch _].
      apply all_nodes_intro; [left; reflexivity|]. intros c Hx.
      assert (Hx' : c = b \/ c = with_kw s (clear_docs (s_kw s))) by (simpl in Hx; destruct Hx as [Hx|[Hx|[]]]; auto).
      destruct Hx' as [-> | ->]; [exact (IH _ (Hacyc id base He))|]. apply all_nodes_intro; [left; reflexivity|].
      intros x Hx'. change (children (with_kw s (clear_docs (s_kw s)))) with (children s) in Hx'. rewrite Hch in Hx'. destruct Hx'.
  Qed.
End Ref.
