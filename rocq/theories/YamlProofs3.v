(** * The schema patcher as a whole. *)

From Coq Require Import List String Bool Arith Lia Permutation.
From Verif Require Import GoLib GoLibFacts MapFacts YamlModel YamlSpec YamlProofs YamlProofs2.
Import ListNotations.
Open Scope string_scope.
Open Scope list_scope.

Lemma gk_eqb_eq a b : gk_eqb a b = true <-> a = b.
Proof.
  unfold gk_eqb. destruct a, b; simpl. rewrite andb_true_iff, !String.eqb_eq. split; [intros [-> ->]; reflexivity|intros [= -> ->]; auto].
Qed.
Lemma forall2_map_r (A B C : Type) (R : A -> C -> Prop) (f : B -> C) l l' : Forall2 (fun a b => R a (f b)) l l' -> Forall2 R l (map f l').
Proof. induction 1; simpl; constructor; auto. Qed.
Section Gen.
  Variable T : Type.
  Variable to_yaml : T -> option node.
  Variable short_tag : node -> string.
  Variable schema_of : string -> string -> T.
  Notation set_versioned := (set_versioned T to_yaml short_tag).
  Notation patch_docs := (patch_docs T to_yaml short_tag).
  Notation patch_sets := (patch_sets T to_yaml short_tag).
  Notation collect := (collect T schema_of).
  Notation collect_all := (collect_all T schema_of).
  Notation generate := (generate T to_yaml short_tag schema_of).
  Notation file_result := (file_result T to_yaml schema_of).
  Notation schema_for := (schema_for T schema_of).
  Notation entry := (string * (string * string))%type.

  Definition new_of (s : crdset T) : list (string * T) := cs_new T s.
  Definition vers_of (s : crdset T) : list string := cs_versions T s.
  Definition docs_in (s : crdset T) : list (string * node) := cs_docs T s.

  (** ** Only lookups matter *)
  Lemma patch_version_ext new new' v : (forall k, mget String.eqb new k = mget String.eqb new' k) ->
    patch_version T to_yaml short_tag new v = patch_version T to_yaml short_tag new' v.
  Proof. intros H. unfold patch_version. destruct (get_node v ["name"]) as [[n|]|]; auto. rewrite H. reflexivity. Qed.
  Lemma patch_versions_ext new new' l : (forall k, mget String.eqb new k = mget String.eqb new' k) ->
    patch_versions T to_yaml short_tag new l = patch_versions T to_yaml short_tag new' l.
  Proof. intros H. induction l as [|v l IH]; simpl; auto. rewrite (patch_version_ext new new' v H), IH. reflexivity. Qed.
  Lemma set_versioned_ext new new' d : (forall k, mget String.eqb new k = mget String.eqb new' k) -> set_versioned new d = set_versioned new' d.
  Proof.
    intros H. unfold YamlModel.set_versioned. destruct (delete_node d ["spec"; "validation"]) as [d1|]; auto. destruct (get_pos d1 ["spec"; "versions"]) as [[p|]|]; auto.
    destruct (node_at p d1) as [n|]; auto. rewrite (patch_versions_ext new new' _ H). reflexivity.
  Qed.
  Lemma patch_docs_ext new new' l : (forall k, mget String.eqb new k = mget String.eqb new' k) -> patch_docs new l = patch_docs new' l.
  Proof. intros H. induction l as [|[f d] l IH]; simpl; auto. rewrite (set_versioned_ext new new' d H), IH. reflexivity. Qed.

  Definition same_set (s s' : crdset T) : Prop := vers_of s = vers_of s' /\ docs_in s = docs_in s' /\ forall k, mget String.eqb (new_of s) k = mget String.eqb (new_of s') k.
  Definition one (s : crdset T) : outcome (list (string * node)) := match new_of s with [] => Done (docs_in s) | _ => patch_docs (new_of s) (docs_in s) end.
  Lemma one_ext s s' : same_set s s' -> one s = one s'.
  Proof.
    intros (H1 & H2 & H3). unfold one. rewrite <- H2. destruct (new_of s) as [|[k t] l] eqn:E; destruct (new_of s') as [|[k' t'] l'] eqn:E'; auto.
    - specialize (H3 k'). simpl in H3. rewrite String.eqb_refl in H3. discriminate.
    - specialize (H3 k). simpl in H3. rewrite String.eqb_refl in H3. discriminate.
    - apply patch_docs_ext, H3.
  Qed.

  (** ** All sets *)
  Lemma patch_sets_done sets out : patch_sets sets = Done out <-> exists outs, Forall2 (fun gs o => one (snd gs) = Done o) sets outs /\ out = List.concat outs.
  Proof.
    revert out. induction sets as [|[g s] sets IH]; intros out; simpl.
    - split; [intros [= <-]; exists []; auto|]. intros (outs & H & ->). inversion H. reflexivity.
    - change (match cs_new T s with [] => Done (cs_docs T s) | _ :: _ => patch_docs (cs_new T s) (cs_docs T s) end) with (one s). split.
      + destruct (one s) as [o| |] eqn:Eo; try discriminate. destruct (patch_sets sets) as [l| |]; try discriminate. intros [= <-].
        destruct (proj1 (IH l) eq_refl) as (outs & H1 & ->). exists (o :: outs). split; [constructor; auto|reflexivity].
      + intros (outs & H & ->). inversion H as [|? o ? outs' H1 H2]; subst. simpl in H1. rewrite H1.
        rewrite (proj2 (IH (List.concat outs'))); [reflexivity|]. exists outs'. auto.
  Qed.
  Lemma forall2_perm (A B : Type) (R : A -> B -> Prop) l l' : Permutation l l' -> forall o, Forall2 R l o -> exists o', Forall2 R l' o' /\ Permutation o o'.
  Proof.
    intros P. induction P as [|x l l' P IH|x y l|l l1 l2 P1 IH1 P2 IH2]; intros o H.
    - exists o. split; [assumption|apply Permutation_refl].
    - inversion H as [|? b ? o1 H1 H2]; subst. destruct (IH _ H2) as (o' & H3 & H4). exists (b :: o'). auto.
    - inversion H as [|? b ? o1 H1 H2]; subst. inversion H2 as [|? b' ? o2 H3 H4]; subst. exists (b' :: b :: o2). split; [auto|apply perm_swap].
    - destruct (IH1 _ H) as (o1 & H1 & Q1). destruct (IH2 _ H1) as (o2 & H2 & Q2). exists o2. split; [assumption|etransitivity; eauto].
  Qed.
  Lemma concat_perm (A : Type) (o o' : list (list A)) : Permutation o o' -> Permutation (List.concat o) (List.concat o').
  Proof.
    intros P. induction P as [|x l l' P IH|x y l|l l1 l2 P1 IH1 P2 IH2]; simpl; auto.
    - apply Permutation_app_head, IH.
    - rewrite !app_assoc. apply Permutation_app_tail, Permutation_app_comm.
    - etransitivity; eauto.
  Qed.

  Lemma patch_docs_done new docs out : patch_docs new docs = Done out -> Forall2 (fun f f' => fst f' = fst f /\ set_versioned new (snd f) = Done (snd f')) docs out.
  Proof.
    revert out. induction docs as [|[f d] docs IH]; intros out; simpl; [intros [= <-]; constructor|]. destruct (set_versioned new d) as [d'| |] eqn:E; try discriminate.
    destruct (patch_docs new docs) as [l| |]; try discriminate. intros [= <-]. constructor; auto.
  Qed.

  (** ** Collecting schemata *)
  Definition hit (g : gk) (s : crdset T) (gvs : list entry) (v : string) (t : T) : Prop :=
    In v (vers_of s) /\ exists pkg, In (pkg, (fst g, v)) gvs /\ t = schema_of pkg (snd g).
  Lemma collect_spec g : forall gvs s, NoDup (map snd gvs) ->
    vers_of (collect g gvs s) = vers_of s /\ docs_in (collect g gvs s) = docs_in s /\
    forall v t, mget String.eqb (new_of (collect g gvs s)) v = Some t <->
      hit g s gvs v t \/ (mget String.eqb (new_of s) v = Some t /\ forall t', ~ hit g s gvs v t').
  Proof.
    unfold YamlModel.collect. induction gvs as [|[pkg [grp ver]] gvs IH]; intros s N; simpl.
    - split; [reflexivity|]. split; [reflexivity|]. intros v t. unfold hit. split; [intros H; right; split; [exact H|intros t' (_ & p & [] & _)]|].
      intros [(_ & p & [] & _)|[H _]]; exact H.
    - inversion N as [|? ? N1 N2]; subst. simpl in N1.
      destruct (String.eqb grp (fst g) && mem_str ver (cs_versions T s)) eqn:E.
      + apply andb_true_iff in E as [E1 E2]. apply String.eqb_eq in E1. apply mem_str_spec in E2. subst grp.
        destruct (IH (mkSet T (cs_versions T s) (mset String.eqb (cs_new T s) ver (schema_of pkg (snd g))) (cs_docs T s)) N2) as (I1 & I2 & I3).
        split; [exact I1|]. split; [exact I2|]. intros v t. rewrite I3. clear I1 I2 I3 IH. unfold hit, vers_of, new_of. simpl.
        destruct (String.eqb_spec v ver) as [->|Hv].
        * rewrite (mget_mset_eq _ _ _ String.eqb_eq).
          assert (No : forall p, ~ In (p, (fst g, ver)) gvs) by (intros p Hp; apply N1; apply (in_map snd) in Hp; exact Hp).
          split.
          -- intros [(_ & p & Hp & _)|[[= <-] _]]; [destruct (No p Hp)|]. left. split; [exact E2|]. exists pkg. auto.
          -- intros [(_ & p & [[= <-]|Hp] & ->)|[_ H]]; [right|destruct (No p Hp)|].
             ++ split; [reflexivity|]. intros t' (_ & p & Hp & _). exact (No p Hp).
             ++ exfalso. apply (H (schema_of pkg (snd g))). split; [exact E2|]. exists pkg. auto.
        * rewrite (mget_mset_ne _ _ _ String.eqb_eq) by exact Hv.
          assert (Hi : forall p, ((pkg, (fst g, ver)) = (p, (fst g, v)) \/ In (p, (fst g, v)) gvs) <-> In (p, (fst g, v)) gvs).
          { intros p. split; [intros [H|H]; [congruence|exact H]|auto]. }
          split; (intros [(H1 & p & H2 & H3)|[H1 H2]]; [left; split; [exact H1|]; exists p; rewrite Hi in *; auto|right; split; [exact H1|]]);
            intros t' (G1 & p & G2 & G3); apply (H2 t'); split; auto; exists p; rewrite Hi in *; auto.
      + destruct (IH s N2) as (I1 & I2 & I3). split; [exact I1|]. split; [exact I2|]. intros v t. rewrite I3.
        assert (Hi : forall t', hit g s gvs v t' <-> hit g s ((pkg, (grp, ver)) :: gvs) v t').
        { intros t'. unfold hit. split; intros (G1 & p & G2 & G3); split; auto; exists p; split; auto; [right; exact G2|].
          destruct G2 as [[= -> -> ->]|G2]; [|exact G2]. exfalso. rewrite String.eqb_refl in E. simpl in E. apply mem_str_false in E. contradiction. }
        rewrite (Hi t). split; (intros [H|[H1 H2]]; [auto|right; split; [exact H1|intros t' Ht; apply (H2 t'), Hi, Ht]]).
  Qed.

  Definition touch (kinds : list gk) (ord : list entry -> list entry) (gvs : list entry) (e : gk * crdset T) : gk * crdset T :=
    (fst e, if existsb (gk_eqb (fst e)) kinds then collect (fst e) (ord gvs) (snd e) else snd e).
  Lemma mset_present (F : crdset T -> crdset T) sets g s : NoDup (map fst sets) -> mget gk_eqb sets g = Some s ->
    mset gk_eqb sets g (F s) = map (fun e => (fst e, if gk_eqb (fst e) g then F (snd e) else snd e)) sets.
  Proof.
    induction sets as [|[g' s'] sets IH]; simpl; [discriminate|]. intros N. inversion N; subst. destruct (gk_eqb g g') eqn:E.
    - apply gk_eqb_eq in E. subst g'. intros [= ->]. assert (Er : gk_eqb g g = true) by (apply gk_eqb_eq; reflexivity). rewrite Er. f_equal.
      clear -H1. induction sets as [|[g' s'] sets IH]; simpl in *; [reflexivity|]. destruct (gk_eqb g' g) eqn:E; [apply gk_eqb_eq in E; subst; tauto|]. f_equal. apply IH. tauto.
    - intros H. destruct (gk_eqb g' g) eqn:E'; [apply gk_eqb_eq in E'; subst; rewrite (proj2 (gk_eqb_eq g g) eq_refl) in E; discriminate|]. f_equal. apply IH; auto.
  Qed.
  Lemma collect_all_eq ord gvs : forall kinds sets, NoDup kinds -> NoDup (map fst sets) -> collect_all ord kinds gvs sets = map (touch kinds ord gvs) sets.
  Proof.
    unfold YamlModel.collect_all. induction kinds as [|g kinds IH]; intros sets Nk Ns; simpl.
    - symmetry. erewrite map_ext; [apply map_id|]. intros [a b]. reflexivity.
    - inversion Nk as [|? ? N1 N2]; subst.
      assert (Hk : forall e : gk * crdset T, gk_eqb (fst e) g = true -> existsb (gk_eqb (fst e)) kinds = false).
      { intros e He. apply gk_eqb_eq in He. destruct (existsb (gk_eqb (fst e)) kinds) eqn:Ex; [|reflexivity]. apply existsb_exists in Ex as (x & Hx & Ex). apply gk_eqb_eq in Ex. congruence. }
      destruct (mget gk_eqb sets g) as [s|] eqn:E.
      + rewrite (mset_present (collect g (ord gvs)) sets g s Ns E). rewrite IH; auto.
        * rewrite map_map. apply map_ext. intros [a b]. unfold touch. simpl. destruct (gk_eqb a g) eqn:Ea; simpl; [|reflexivity].
          pose proof (Hk (a, b) Ea) as Hx. simpl in Hx. rewrite Hx. apply gk_eqb_eq in Ea. subst. reflexivity.
        * rewrite map_map. simpl. exact Ns.
      + rewrite IH; auto. apply map_ext_in. intros [a b] Hin. unfold touch. simpl. destruct (gk_eqb a g) eqn:Ea; [|reflexivity].
        exfalso. apply gk_eqb_eq in Ea. subst. apply (mget_none _ _ _ gk_eqb_eq) in E. apply E. apply (in_map fst) in Hin. exact Hin.
  Qed.
  Lemma touch_same kinds ord ord' gvs e : is_order ord -> is_order ord' -> NoDup (map snd gvs) -> same_set (snd (touch kinds ord gvs e)) (snd (touch kinds ord' gvs e)).
  Proof.
    intros O1 O2 N. unfold touch. simpl. destruct (existsb (gk_eqb (fst e)) kinds); [|repeat split; reflexivity].
    assert (Hn : forall o, is_order o -> NoDup (map snd (o gvs))) by (intros o Ho; exact (Permutation_NoDup (Permutation_map snd (Permutation_sym (Ho gvs))) N)).
    destruct (collect_spec (fst e) (ord gvs) (snd e) (Hn ord O1)) as (A1 & A2 & A3). destruct (collect_spec (fst e) (ord' gvs) (snd e) (Hn ord' O2)) as (B1 & B2 & B3).
    split; [congruence|]. split; [congruence|]. intros k.
    assert (Hh : forall t, hit (fst e) (snd e) (ord gvs) k t <-> hit (fst e) (snd e) (ord' gvs) k t).
    { intros t. unfold hit. split; intros (G1 & p & G2 & G3); split; auto; exists p; split; auto.
      - apply (Permutation_in _ (Permutation_sym (O2 gvs))). exact (Permutation_in _ (O1 gvs) G2).
      - apply (Permutation_in _ (Permutation_sym (O1 gvs))). exact (Permutation_in _ (O2 gvs) G2). }
    assert (Hiff : forall t, mget String.eqb (new_of (collect (fst e) (ord gvs) (snd e))) k = Some t <-> mget String.eqb (new_of (collect (fst e) (ord' gvs) (snd e))) k = Some t).
    { intros t. rewrite A3, B3, Hh. split; (intros [H|[H1 H2]]; [auto|right; split; [exact H1|intros t' Ht; apply (H2 t'), Hh, Ht]]). }
    destruct (mget String.eqb (new_of (collect (fst e) (ord gvs) (snd e))) k) as [t|].
    - symmetry. apply Hiff. reflexivity.
    - destruct (mget String.eqb (new_of (collect (fst e) (ord' gvs) (snd e))) k) as [t|]; [|reflexivity]. apply Hiff. reflexivity.
  Qed.

  Lemma generate_det ord ord_s ord' ord_s' kinds gvs sets out :
    is_order ord -> is_order ord_s -> is_order ord' -> is_order ord_s' -> NoDup kinds -> NoDup (map fst sets) -> NoDup (map snd gvs) ->
    generate ord ord_s kinds gvs sets = Done out -> exists out', generate ord' ord_s' kinds gvs sets = Done out' /\ Permutation out out'.
  Proof.
    intros O1 O2 O3 O4 Nk Ns Ng. unfold YamlModel.generate. rewrite !collect_all_eq by assumption. intros H. apply patch_sets_done in H as (outs & H & ->).
    destruct (forall2_perm _ _ _ _ _ (O2 _) _ H) as (o1 & H1 & P1).
    assert (H2 : Forall2 (fun gs o => one (snd gs) = Done o) (map (touch kinds ord' gvs) sets) o1).
    { clear -H1 O1 O3 Ng. revert o1 H1. induction sets as [|e sets IH]; intros o1 H1; inversion H1; subst; constructor; auto.
      rewrite <- (one_ext _ _ (touch_same kinds ord ord' gvs e O1 O3 Ng)). assumption. }
    destruct (forall2_perm _ _ _ _ _ (Permutation_sym (O4 _)) _ H2) as (o2 & H3 & P2). exists (List.concat o2). split; [apply patch_sets_done; eauto|].
    apply concat_perm. etransitivity; eauto.
  Qed.

  Lemma generate_files ord ord_s kinds gvs sets out :
    is_order ord -> is_order ord_s -> NoDup kinds -> NoDup (map fst sets) -> NoDup (map snd gvs) ->
    (forall e, In e sets -> cs_new T (snd e) = [] /\ forall f, In f (cs_docs T (snd e)) -> paired (snd f)) ->
    generate ord ord_s kinds gvs sets = Done out ->
    exists outs, Forall2 (fun e o => Forall2 (file_result kinds gvs (fst e) (cs_versions T (snd e))) (cs_docs T (snd e)) o) sets outs /\ Permutation out (List.concat outs).
  Proof.
    intros O1 O2 Nk Ns Ng Hs. unfold YamlModel.generate. rewrite collect_all_eq by assumption. intros H. apply patch_sets_done in H as (outs & H & ->).
    destruct (forall2_perm _ _ _ _ _ (O2 _) _ H) as (o1 & H1 & P1). exists o1. split; [|apply concat_perm, P1]. clear H P1 outs Ns.
    revert o1 H1. induction sets as [|e sets IH]; intros o1 H1; inversion H1 as [|? o ? o1' E H2]; subst; constructor; [|apply IH; [intros; apply Hs; right; assumption|assumption]].
    clear IH H1 H2. destruct (Hs e (or_introl eq_refl)) as [Hn Hp]. clear Hs. unfold touch in E. simpl in E.
    assert (Hno : ~ In (fst e) kinds -> forall v t, ~ schema_for kinds gvs (fst e) (cs_versions T (snd e)) v t) by (intros Hk v t (H & _); contradiction).
    assert (Same : forall docs, (forall v t, ~ schema_for kinds gvs (fst e) (cs_versions T (snd e)) v t) -> Forall2 (file_result kinds gvs (fst e) (cs_versions T (snd e))) docs docs).
    { intros docs Hx. induction docs; constructor; auto. split; [reflexivity|]. split; [reflexivity|]. intros (v & t & Ht). destruct (Hx v t Ht). }
    destruct (existsb (gk_eqb (fst e)) kinds) eqn:Ex.
    - apply existsb_exists in Ex as (x & Hx & Ex). apply gk_eqb_eq in Ex. subst x.
      assert (Ng' : NoDup (map snd (ord gvs))) by exact (Permutation_NoDup (Permutation_map snd (Permutation_sym (O1 gvs))) Ng).
      destruct (collect_spec (fst e) (ord gvs) (snd e) Ng') as (A1 & A2 & A3).
      set (s' := collect (fst e) (ord gvs) (snd e)) in *.
      assert (Hm : forall v t, mget String.eqb (new_of s') v = Some t <-> schema_for kinds gvs (fst e) (cs_versions T (snd e)) v t).
      { intros v t. rewrite A3. unfold hit, vers_of, schema_for, YamlSpec.schema_for. unfold new_of. rewrite Hn. simpl. split.
        - intros [(G1 & p & G2 & G3)|[G _]]; [|discriminate]. split; [exact Hx|]. split; [exact G1|]. exists p. split; [exact (Permutation_in _ (O1 gvs) G2)|exact G3].
        - intros (_ & G1 & p & G2 & G3). left. split; [exact G1|]. exists p. split; [exact (Permutation_in _ (Permutation_sym (O1 gvs)) G2)|exact G3]. }
      unfold one in E. rewrite A2 in E. destruct (new_of s') as [|[k t] l] eqn:En.
      + injection E as <-. apply Same. intros v t Ht. apply Hm in Ht. discriminate.
      + assert (Hk : schema_for kinds gvs (fst e) (cs_versions T (snd e)) k t) by (apply Hm; simpl; rewrite String.eqb_refl; reflexivity).
        apply patch_docs_done in E. rewrite <- En in *. clear En. revert E Hp. fold (docs_in (snd e)). generalize (docs_in (snd e)) as docs. clear -Hm Hk. intros docs E Hp.
        induction E as [|f f' docs o [E1 E2] E IH]; constructor; [|apply IH; intros; apply Hp; right; assumption].
        split; [exact E1|]. split; [intros Hx|intros _; exists (new_of s'); split; [exact Hm|]; eapply set_versioned_patched; [apply Hp; left; reflexivity|exact E2]].
        destruct (Hx k t Hk).
    - unfold one, new_of, docs_in in E. rewrite Hn in E. injection E as <-. apply Same, Hno. intros Hk.
      assert (existsb (gk_eqb (fst e)) kinds = true) by (apply existsb_exists; exists (fst e); split; [exact Hk|apply gk_eqb_eq; reflexivity]). congruence.
  Qed.
End Gen.

Section Load.
  Variable T : Type.
  Notation file := (string * (gk * list string * node))%type.
  Definition load_step (sets : list (gk * crdset T)) (f : file) : list (gk * crdset T) :=
    let '(name, (g, vers, doc)) := f in
    let s := match mget gk_eqb sets g with Some s => s | None => mkSet T [] [] [] end in
    mset gk_eqb sets g (mkSet T (fold_left (fun l v => if mem_str v l then l else l ++ [v]) vers (cs_versions T s))
                              (cs_new T s) (cs_docs T s ++ [(name, doc)])).
  Definition load_inv (files : list file) (sets : list (gk * crdset T)) : Prop :=
    NoDup (map fst sets) /\
    (forall g s, mget gk_eqb sets g = Some s ->
       cs_new T s = [] /\ cs_docs T s = map (fun f => (fst f, snd (snd f))) (filter (fun f => gk_eqb (fst (fst (snd f))) g) files) /\
       forall v, In v (cs_versions T s) <-> exists f, In f files /\ fst (fst (snd f)) = g /\ In v (snd (fst (snd f)))) /\
    (forall g, mget gk_eqb sets g = None <-> forall f, In f files -> fst (fst (snd f)) <> g).
  Lemma union_in vers : forall l v, In v (fold_left (fun l v => if mem_str v l then l else l ++ [v]) vers l) <-> In v l \/ In v vers.
  Proof.
    induction vers as [|x vers IH]; intros l v; simpl; [tauto|]. rewrite IH. destruct (mem_str x l) eqn:E.
    - apply mem_str_spec in E. intuition. subst. auto.
    - rewrite in_app_iff. simpl. tauto.
  Qed.
  Lemma load_step_inv files sets f : load_inv files sets -> load_inv (files ++ [f]) (load_step sets f).
  Proof.
    intros (I1 & I2 & I3). destruct f as [name [[g vers] doc]]. unfold load_step.
    set (s0 := match mget gk_eqb sets g with Some s => s | None => mkSet T [] [] [] end).
    assert (S0 : cs_new T s0 = [] /\ cs_docs T s0 = map (fun f : file => (fst f, snd (snd f))) (filter (fun f => gk_eqb (fst (fst (snd f))) g) files) /\
      forall v, In v (cs_versions T s0) <-> exists f, In f files /\ fst (fst (snd f)) = g /\ In v (snd (fst (snd f)))).
    { unfold s0. destruct (mget gk_eqb sets g) as [s|] eqn:E; [exact (I2 g s E)|]. simpl. pose proof (proj1 (I3 g) E) as E3. clear E. rename E3 into E. split; [reflexivity|]. split.
      - clear -E. induction files as [|f files IH]; simpl; [reflexivity|]. destruct (gk_eqb (fst (fst (snd f))) g) eqn:Eg; [apply gk_eqb_eq in Eg; destruct (E f (or_introl eq_refl) Eg)|].
        apply IH. intros x Hx. apply E. right. exact Hx.
      - intros v. split; [tauto|]. intros (f & H1 & H2 & _). exact (E f H1 H2). }
    destruct S0 as (N0 & D0 & V0). split; [apply mset_nodup; [exact gk_eqb_eq|exact I1]|]. split.
    intros g0 s H. split; [|split; [|intros v; split]].
    - destruct (gk_eqb g0 g) eqn:Eg.
      + apply gk_eqb_eq in Eg. subst g0. rewrite (mget_mset_eq _ _ _ gk_eqb_eq) in H. injection H as <-. exact N0.
      + assert (Hne : g0 <> g) by (intros ->; rewrite (proj2 (gk_eqb_eq g g) eq_refl) in Eg; discriminate). rewrite (mget_mset_ne _ _ _ gk_eqb_eq) in H by exact Hne.
        exact (proj1 (I2 g0 s H)).
    - rewrite filter_app, map_app. destruct (gk_eqb g0 g) eqn:Eg.
      + apply gk_eqb_eq in Eg. subst g0. rewrite (mget_mset_eq _ _ _ gk_eqb_eq) in H. injection H as <-. simpl. rewrite (proj2 (gk_eqb_eq g g) eq_refl). rewrite D0. reflexivity.
      + assert (Hne : g0 <> g) by (intros ->; rewrite (proj2 (gk_eqb_eq g g) eq_refl) in Eg; discriminate). rewrite (mget_mset_ne _ _ _ gk_eqb_eq) in H by exact Hne.
        simpl. assert (Eg' : gk_eqb g g0 = false) by (destruct (gk_eqb g g0) eqn:X; [apply gk_eqb_eq in X; congruence|reflexivity]). rewrite Eg', app_nil_r.
        exact (proj1 (proj2 (I2 g0 s H))).
    - intros Hv. destruct (gk_eqb g0 g) eqn:Eg.
      + apply gk_eqb_eq in Eg. subst g0. rewrite (mget_mset_eq _ _ _ gk_eqb_eq) in H. injection H as <-. simpl in Hv. apply union_in in Hv as [Hv|Hv].
        * apply V0 in Hv as (f & F1 & F2). exists f. split; [apply in_or_app; auto|exact F2].
        * exists (name, (g, vers, doc)). split; [apply in_or_app; right; left; reflexivity|]. auto.
      + assert (Hne : g0 <> g) by (intros ->; rewrite (proj2 (gk_eqb_eq g g) eq_refl) in Eg; discriminate). rewrite (mget_mset_ne _ _ _ gk_eqb_eq) in H by exact Hne.
        apply (proj2 (proj2 (I2 g0 s H))) in Hv as (f & F1 & F2). exists f. split; [apply in_or_app; auto|exact F2].
    - intros (f & F1 & F2 & F3). apply in_app_iff in F1. destruct (gk_eqb g0 g) eqn:Eg.
      + apply gk_eqb_eq in Eg. rewrite Eg in F2, H. rewrite (mget_mset_eq _ _ _ gk_eqb_eq) in H. injection H as <-. simpl. apply union_in.
        destruct F1 as [F1|[<-|[]]]; [left; apply V0; exists f; auto|right; exact F3].
      + assert (Hne : g0 <> g) by (intros ->; rewrite (proj2 (gk_eqb_eq g g) eq_refl) in Eg; discriminate). rewrite (mget_mset_ne _ _ _ gk_eqb_eq) in H by exact Hne.
        apply (proj2 (proj2 (I2 g0 s H))). destruct F1 as [F1|[<-|[]]]; [exists f; auto|simpl in F2; congruence].
    - intros g0. split.
      { intros H f Hf. apply in_app_iff in Hf. apply (mget_none _ _ _ gk_eqb_eq) in H. rewrite (mset_keys _ _ _ gk_eqb_eq) in H.
      destruct Hf as [Hf|[<-|[]]]; [|simpl; intros ->; tauto]. assert (Hn : mget gk_eqb sets g0 = None) by (apply (mget_none _ _ _ gk_eqb_eq); tauto).
      apply (proj1 (I3 g0) Hn f Hf). }
      intros H. apply (mget_none _ _ _ gk_eqb_eq). rewrite (mset_keys _ _ _ gk_eqb_eq). intros [->|Hk].
      + apply (H (name, (g, vers, doc))); [apply in_or_app; right; left; reflexivity|reflexivity].
      + assert (Hn : mget gk_eqb sets g0 = None) by (apply (proj2 (I3 g0)); intros f Hf; apply H; apply in_or_app; auto). apply (mget_none _ _ _ gk_eqb_eq) in Hn. contradiction.
  Qed.
  Lemma load_spec files : load_inv files (load T files).
  Proof.
    change (load T files) with (fold_left load_step files []).
    assert (G : forall fs done sets, load_inv done sets -> load_inv (done ++ fs) (fold_left load_step fs sets)).
    { induction fs as [|f fs IH]; intros done sets H; simpl; [rewrite app_nil_r; exact H|]. replace (done ++ f :: fs) with ((done ++ [f]) ++ fs) by (rewrite <- app_assoc; reflexivity).
      apply IH, load_step_inv, H. }
    apply (G files [] []). split; [constructor|]. split; [discriminate|]. intros g. split; [intros _ f []|reflexivity].
  Qed.
End Load.
