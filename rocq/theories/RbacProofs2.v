(** * rbac: completeness, determinism and the shape of the objects. *)

From Coq Require Import List String Ascii Bool Permutation Sorting.Sorted Lia.
From Verif Require Import GoLib GoLibFacts RbacModel RbacSpec RbacProofs.
Import ListNotations.
Open Scope string_scope.
Open Scope list_scope.

(** ** Exactness of each merge on rules the API server accepts *)

Definition good (ns : string) (r : rule) : Prop := wf r /\ nf r /\ k8s_valid r /\ r_ns r = ns.

Inductive cell := CR (g r : string) (names : list string) | CU (u : string).
Definition has_cell (r : rule) (c : cell) : Prop :=
  match c with
  | CR g x n => In g (r_groups r) /\ In x (r_resources r) /\ r_names r = n
  | CU u => In u (r_urls r)
  end.

Lemma k8s_valid_has_cell r : k8s_valid r -> exists c, has_cell r c.
Proof.
  intros [(H & _)|(_ & H1 & H2)].
  - destruct (r_urls r) as [|u us] eqn:E; [congruence|]. exists (CU u). simpl. rewrite E. left; reflexivity.
  - destruct (r_groups r) as [|g gs] eqn:E; [congruence|]. destruct (r_resources r) as [|x xs] eqn:E2; [congruence|].
    exists (CR g x (r_names r)). simpl. rewrite E, E2. simpl. auto.
Qed.

Lemma good_key_of ns a b : good ns a -> good ns b -> key_of a = key_of b ->
  r_groups a = r_groups b /\ r_resources a = r_resources b /\ r_names a = r_names b /\ r_urls a = r_urls b.
Proof.
  intros (Wa & _ & Ka & _) (Wb & _ & Kb & _) H.
  destruct (key_of_inj a b Wa Wb H) as (Hg & Hr & Hn & Hu). repeat split; auto.
  destruct Hg as [Hg|[[E1 E2]|[E1 E2]]]; [exact Hg| |];
  destruct Ka as [(?&?&?&?)|(?&?&?)]; destruct Kb as [(?&?&?&?)|(?&?&?)]; congruence.
Qed.

Lemma good_key_no_resources ns a b : good ns a -> good ns b -> key_no_resources a = key_no_resources b ->
  r_groups a = r_groups b /\ r_names a = r_names b /\ r_urls a = r_urls b /\ r_verbs a = r_verbs b.
Proof.
  intros (Wa & _ & Ka & _) (Wb & _ & Kb & _) H.
  destruct (key_no_resources_inj a b Wa Wb H) as (Hg & Hn & Hu & Hv). repeat split; auto.
  destruct Hg as [Hg|[[E1 E2]|[E1 E2]]]; [exact Hg| |];
  destruct Ka as [(?&?&?&?)|(?&?&?)]; destruct Kb as [(?&?&?&?)|(?&?&?)]; congruence.
Qed.

Lemma good_key_no_groups ns a b : good ns a -> good ns b -> key_no_groups a = key_no_groups b ->
  r_resources a = r_resources b /\ r_names a = r_names b /\ r_urls a = r_urls b /\ r_verbs a = r_verbs b.
Proof. intros (Wa & _) (Wb & _) H. apply key_no_groups_inj; assumption. Qed.

Lemma good_key_no_urls ns a b : good ns a -> good ns b -> key_no_urls a = key_no_urls b ->
  r_groups a = r_groups b /\ r_resources a = r_resources b /\ r_names a = r_names b /\ r_verbs a = r_verbs b.
Proof.
  intros (Wa & _ & Ka & _) (Wb & _ & Kb & _) H.
  destruct (key_no_urls_inj a b Wa Wb H) as (Hg & Hr & Hn & Hv). repeat split; auto.
  destruct Hg as [Hg|[[E1 E2]|[E1 E2]]]; [exact Hg| |];
  destruct Ka as [(?&?&?&?)|(?&?&?)]; destruct Kb as [(?&?&?&?)|(?&?&?)]; congruence.
Qed.

(** What a stage must satisfy. *)
Definition merge_ok {K : Type} (keyf : rule -> K) (absorb : rule -> list rule -> rule) : Prop :=
  forall ns r0 rs,
    (forall a, In a (r0 :: rs) -> good ns a) -> (forall a, In a (r0 :: rs) -> keyf a = keyf r0) ->
    good ns (mergeF absorb (r0 :: rs)) /\
    (forall c, has_cell (mergeF absorb (r0 :: rs)) c <-> exists a, In a (r0 :: rs) /\ has_cell a c) /\
    (forall q, ra (mergeF absorb (r0 :: rs)) q <-> exists a, In a (r0 :: rs) /\ ra a q).

Definition merge_perm {K : Type} (keyf : rule -> K) (absorb : rule -> list rule -> rule) : Prop :=
  forall ns l l',
    (forall a, In a l -> good ns a) -> (forall a b, In a l -> In b l -> keyf a = keyf b) ->
    Permutation l l' -> mergeF absorb l = mergeF absorb l'.

Lemma in_app_flat_map (f : rule -> list string) r0 rs x :
  In x (f r0 ++ flat_map f rs) <-> exists a, In a (r0 :: rs) /\ In x (f a).
Proof.
  rewrite in_app_iff, in_flat_map. simpl. split.
  - intros [H|(a & H1 & H2)]; eauto.
  - intros (a & [<-|H1] & H2); eauto.
Qed.

Lemma app_flat_map_nil (f : rule -> list string) r0 rs :
  f r0 ++ flat_map f rs = [] <-> forall a, In a (r0 :: rs) -> f a = [].
Proof.
  split.
  - intros H a Ha. destruct (f a) as [|x l] eqn:E; [reflexivity|]. exfalso.
    assert (Hx : In x (f r0 ++ flat_map f rs)) by (apply in_app_flat_map; exists a; split; [exact Ha|rewrite E; left; reflexivity]).
    rewrite H in Hx. contradiction.
  - intros H. destruct (f r0 ++ flat_map f rs) as [|x l] eqn:E; [reflexivity|]. exfalso.
    assert (Hx : In x (f r0 ++ flat_map f rs)) by (rewrite E; left; reflexivity).
    apply in_app_flat_map in Hx as (a & Ha & Hx). rewrite (H a Ha) in Hx. contradiction.
Qed.

Lemma rds_of_nf_groups a : nf a -> rds (r_groups a) = r_groups a. Proof. intros H; apply nf_fields in H; tauto. Qed.
Lemma rds_of_nf_names a : nf a -> rds (r_names a) = r_names a. Proof. intros H; apply nf_fields in H; tauto. Qed.

(** pass 1 *)
Lemma merge_ok_verbs : merge_ok key_of absorb_verbs.
Proof.
  intros ns r0 rs Hgood Hk.
  assert (G0 := Hgood r0 (or_introl eq_refl)). destruct G0 as (W0 & N0 & K0 & NS0).
  assert (Hag : forall a, In a (r0 :: rs) -> r_groups r0 = r_groups a /\ r_resources r0 = r_resources a /\
    r_names r0 = r_names a /\ r_urls r0 = r_urls a).
  { intros a Ha. apply (good_key_of ns); [apply Hgood; left; reflexivity|apply Hgood, Ha|symmetry; apply Hk, Ha]. }
  pose proof (nf_fields _ N0) as (F1 & F2 & F3 & F4 & F5).
  split; [|split].
  - split; [apply wf_absorb_verbs; intros a Ha; apply (Hgood a Ha)|].
    split; [apply normalize_nf|]. split; [|exact NS0].
    unfold k8s_valid, mergeF, absorb_verbs, normalize; simpl. unfold rds in *. rewrite F1, F2, F3, F5. exact K0.
  - intros c. unfold mergeF, absorb_verbs, normalize; simpl.
    assert (Hc : forall a, In a (r0 :: rs) -> (has_cell r0 c <-> has_cell a c)).
    { intros a Ha. destruct (Hag a Ha) as (E1 & E2 & E3 & E4). destruct c; simpl; rewrite ?E1, ?E2, ?E3, ?E4; reflexivity. }
    split.
    + intros H. exists r0. split; [left; reflexivity|].
      destruct c; simpl in *; unfold rds in *; rewrite ?F1, ?F2, ?F3, ?F5 in H; exact H.
    + intros (a & Ha & H). apply (Hc a Ha) in H.
      destruct c; simpl in *; unfold rds in *; rewrite ?F1, ?F2, ?F3, ?F5; exact H.
  - intros q. split.
    + apply sound1. intros a Ha. destruct (Hag a Ha) as (E1 & E2 & E3 & E4).
      split; [|repeat split; auto; left; exact E1].
      destruct (Hgood a Ha) as (_ & _ & K & _). unfold hg. destruct K as [(?&?&?&?)|(?&?&?)]; congruence.
    + intros (a & Ha & H). unfold mergeF. rewrite ra_normalize. destruct (Hag a Ha) as (E1 & E2 & E3 & E4).
      unfold ra, absorb_verbs in *; simpl. rewrite E1, E2, E3, E4.
      destruct q as [g r sub n v|p v]; simpl in *.
      * destruct H as ((x & A & B) & H). split; [|exact H]. exists x. split; [|exact B].
        apply (in_app_flat_map r_verbs). exists a; auto.
      * destruct H as ((x & A & B) & H). split; [|exact H]. exists x. split; [|exact B].
        apply (in_app_flat_map r_verbs). exists a; auto.
Qed.

(** pass 2 *)
Lemma merge_ok_resources : merge_ok key_no_resources absorb_resources.
Proof.
  intros ns r0 rs Hgood Hk.
  assert (G0 := Hgood r0 (or_introl eq_refl)). destruct G0 as (W0 & N0 & K0 & NS0).
  assert (Hag : forall a, In a (r0 :: rs) -> r_groups r0 = r_groups a /\
    r_names r0 = r_names a /\ r_urls r0 = r_urls a /\ r_verbs r0 = r_verbs a).
  { intros a Ha. apply (good_key_no_resources ns); [apply Hgood; left; reflexivity|apply Hgood, Ha|symmetry; apply Hk, Ha]. }
  pose proof (nf_fields _ N0) as (F1 & F2 & F3 & F4 & F5).
  split; [|split].
  - split; [apply wf_absorb_resources; intros a Ha; apply (Hgood a Ha)|].
    split; [apply normalize_nf|]. split; [|exact NS0].
    unfold k8s_valid, mergeF, absorb_resources, normalize; simpl. unfold rds in *. rewrite F1, F3, F5.
    destruct K0 as [(K1 & K2 & K3 & K4)|(K1 & K2 & K3)].
    + left. repeat split; auto. apply rds_nil_iff. apply (app_flat_map_nil r_resources).
      intros a Ha. destruct (Hag a Ha) as (E1 & E2 & E3 & E4).
      destruct (Hgood a Ha) as (_ & _ & [(?&?&?&?)|(?&?&?)] & _); congruence.
    + right. repeat split; auto. intros C. apply (proj1 (rds_nil_iff _)) in C.
      apply (proj1 (app_flat_map_nil r_resources r0 rs)) with (a := r0) in C; [contradiction|left; reflexivity].
  - intros c. unfold mergeF, absorb_resources, normalize. destruct c as [g x n|u]; simpl.
    + change remove_dup_and_sort with rds. rewrite F1, F3, rds_in, (in_app_flat_map r_resources). split.
      * intros (A & (a & Ha & B) & C). exists a. destruct (Hag a Ha) as (E1 & E2 & E3 & E4).
        repeat split; auto; congruence.
      * intros (a & Ha & A & B & C). destruct (Hag a Ha) as (E1 & E2 & E3 & E4).
        repeat split; [congruence|eauto|congruence].
    + change remove_dup_and_sort with rds. rewrite F5. split.
      * intros H. exists r0. split; [left; reflexivity|exact H].
      * intros (a & Ha & H). destruct (Hag a Ha) as (E1 & E2 & E3 & E4). congruence.
  - intros q. split.
    + apply sound2. intros a Ha. destruct (Hag a Ha) as (E1 & E2 & E3 & E4).
      split; [|repeat split; auto; left; exact E1].
      destruct (Hgood a Ha) as (_ & _ & K & _). unfold hg. destruct K as [(?&?&?&?)|(?&?&?)]; congruence.
    + intros (a & Ha & H). unfold mergeF. rewrite ra_normalize. destruct (Hag a Ha) as (E1 & E2 & E3 & E4).
      unfold ra, absorb_resources in *; simpl. rewrite E1, E2, E3, E4.
      destruct q as [g r sub n v|p v]; simpl in *; [|exact H].
      destruct H as (Hv & Hg & (x & A & B) & Hn). split; [exact Hv|]. split; [exact Hg|]. split; [|exact Hn].
      exists x. split; [|exact B]. apply (in_app_flat_map r_resources). exists a; auto.
Qed.

(** pass 3 *)
Lemma merge_ok_groups : merge_ok key_no_groups absorb_groups.
Proof.
  intros ns r0 rs Hgood Hk.
  assert (G0 := Hgood r0 (or_introl eq_refl)). destruct G0 as (W0 & N0 & K0 & NS0).
  assert (Hag : forall a, In a (r0 :: rs) -> r_resources r0 = r_resources a /\
    r_names r0 = r_names a /\ r_urls r0 = r_urls a /\ r_verbs r0 = r_verbs a).
  { intros a Ha. apply (good_key_no_groups ns); [apply Hgood; left; reflexivity|apply Hgood, Ha|symmetry; apply Hk, Ha]. }
  pose proof (nf_fields _ N0) as (F1 & F2 & F3 & F4 & F5).
  split; [|split].
  - split; [apply wf_absorb_groups; intros a Ha; apply (Hgood a Ha)|].
    split; [apply normalize_nf|]. split; [|exact NS0].
    unfold k8s_valid, mergeF, absorb_groups, normalize; simpl. unfold rds in *. rewrite F2, F3, F5.
    destruct K0 as [(K1 & K2 & K3 & K4)|(K1 & K2 & K3)].
    + left. repeat split; auto. apply rds_nil_iff. apply (app_flat_map_nil r_groups).
      intros a Ha. destruct (Hag a Ha) as (E1 & E2 & E3 & E4).
      destruct (Hgood a Ha) as (_ & _ & [(?&?&?&?)|(?&?&?)] & _); congruence.
    + right. repeat split; auto. intros C. apply (proj1 (rds_nil_iff _)) in C.
      apply (proj1 (app_flat_map_nil r_groups r0 rs)) with (a := r0) in C; [contradiction|left; reflexivity].
  - intros c. unfold mergeF, absorb_groups, normalize. destruct c as [g x n|u]; simpl.
    + change remove_dup_and_sort with rds. rewrite F2, F3, rds_in, (in_app_flat_map r_groups). split.
      * intros ((a & Ha & A) & B & C). exists a. destruct (Hag a Ha) as (E1 & E2 & E3 & E4).
        repeat split; auto; congruence.
      * intros (a & Ha & A & B & C). destruct (Hag a Ha) as (E1 & E2 & E3 & E4).
        repeat split; [eauto|congruence|congruence].
    + change remove_dup_and_sort with rds. rewrite F5. split.
      * intros H. exists r0. split; [left; reflexivity|exact H].
      * intros (a & Ha & H). destruct (Hag a Ha) as (E1 & E2 & E3 & E4). congruence.
  - intros q. split.
    + apply sound3. exact Hag.
    + intros (a & Ha & H). unfold mergeF. rewrite ra_normalize. destruct (Hag a Ha) as (E1 & E2 & E3 & E4).
      unfold ra, absorb_groups in *; simpl. rewrite E1, E2, E3, E4.
      destruct q as [g r sub n v|p v]; simpl in *; [|exact H].
      destruct H as (Hv & (x & A & B) & Hr & Hn). split; [exact Hv|]. split; [|split; assumption].
      exists x. split; [|exact B]. apply (in_app_flat_map r_groups). exists a; auto.
Qed.

(** pass 4 *)
Lemma merge_ok_urls : merge_ok key_no_urls absorb_urls.
Proof.
  intros ns r0 rs Hgood Hk.
  assert (G0 := Hgood r0 (or_introl eq_refl)). destruct G0 as (W0 & N0 & K0 & NS0).
  assert (Hag : forall a, In a (r0 :: rs) -> r_groups r0 = r_groups a /\ r_resources r0 = r_resources a /\
    r_names r0 = r_names a /\ r_verbs r0 = r_verbs a).
  { intros a Ha. apply (good_key_no_urls ns); [apply Hgood; left; reflexivity|apply Hgood, Ha|symmetry; apply Hk, Ha]. }
  pose proof (nf_fields _ N0) as (F1 & F2 & F3 & F4 & F5).
  split; [|split].
  - split; [apply wf_absorb_urls; intros a Ha; apply (Hgood a Ha)|].
    split; [apply normalize_nf|]. split; [|exact NS0].
    unfold k8s_valid, mergeF, absorb_urls, normalize; simpl. unfold rds in *. rewrite F1, F2, F3.
    destruct K0 as [(K1 & K2 & K3 & K4)|(K1 & K2 & K3)].
    + left. repeat split; auto. intros C. apply (proj1 (rds_nil_iff _)) in C.
      apply (proj1 (app_flat_map_nil r_urls r0 rs)) with (a := r0) in C; [contradiction|left; reflexivity].
    + right. repeat split; auto. apply rds_nil_iff. apply (app_flat_map_nil r_urls).
      intros a Ha. destruct (Hag a Ha) as (E1 & E2 & E3 & E4).
      destruct (Hgood a Ha) as (_ & _ & [(?&?&?&?)|(?&?&?)] & _); congruence.
  - intros c. unfold mergeF, absorb_urls, normalize. destruct c as [g x n|u]; simpl.
    + change remove_dup_and_sort with rds. rewrite F1, F2, F3. split.
      * intros H. exists r0. split; [left; reflexivity|exact H].
      * intros (a & Ha & A & B & C). destruct (Hag a Ha) as (E1 & E2 & E3 & E4). repeat split; congruence.
    + change remove_dup_and_sort with rds. rewrite rds_in, (in_app_flat_map r_urls). reflexivity.
  - intros q. split.
    + apply sound4. intros a Ha. apply Hag, Ha.
    + intros (a & Ha & H). unfold mergeF. rewrite ra_normalize. destruct (Hag a Ha) as (E1 & E2 & E3 & E4).
      unfold ra, absorb_urls in *; simpl. rewrite E1, E2, E3, E4.
      destruct q as [g r sub n v|p v]; simpl in *; [exact H|].
      destruct H as (Hv & (x & A & B)). split; [exact Hv|].
      exists x. split; [|exact B]. apply (in_app_flat_map r_urls). exists a; auto.
Qed.

(** Permutation invariance of the merges. *)
Lemma flat_map_perm_in (f : rule -> list string) r0 rs r0' rs' x :
  Permutation (r0 :: rs) (r0' :: rs') ->
  In x (f r0 ++ flat_map f rs) <-> In x (f r0' ++ flat_map f rs').
Proof.
  intros HP. rewrite !in_app_flat_map. split; intros (a & Ha & H); exists a; (split; [|exact H]).
  - exact (Permutation_in _ HP Ha).
  - exact (Permutation_in _ (Permutation_sym HP) Ha).
Qed.

Ltac perm_case lem :=
  intros ns l l' Hgood Hk HP;
  destruct l as [|r0 rs]; destruct l' as [|r0' rs'];
  [ reflexivity
  | apply Permutation_nil in HP; discriminate
  | symmetry in HP; apply Permutation_nil in HP; discriminate
  | ];
  assert (Hin0 : In r0 (r0 :: rs)) by (left; reflexivity);
  assert (Hin : In r0' (r0 :: rs)) by (apply (Permutation_in _ (Permutation_sym HP)); left; reflexivity);
  assert (Hag := lem ns r0 r0' (Hgood _ Hin0) (Hgood _ Hin) (Hk _ _ Hin0 Hin));
  destruct Hag as (E1 & E2 & E3 & E4);
  destruct (Hgood _ Hin0) as (_ & _ & _ & N1); destruct (Hgood _ Hin) as (_ & _ & _ & N2);
  unfold mergeF, absorb_verbs, absorb_resources, absorb_groups, absorb_urls, normalize; simpl;
  change remove_dup_and_sort with rds;
  rewrite ?E1, ?E2, ?E3, ?E4, N1, N2; f_equal;
  apply rds_ext; intros x; apply flat_map_perm_in; exact HP.

Lemma merge_perm_verbs : merge_perm key_of absorb_verbs.
Proof. perm_case good_key_of. Qed.
Lemma merge_perm_resources : merge_perm key_no_resources absorb_resources.
Proof. perm_case good_key_no_resources. Qed.
Lemma merge_perm_groups : merge_perm key_no_groups absorb_groups.
Proof. perm_case good_key_no_groups. Qed.
Lemma merge_perm_urls : merge_perm key_no_urls absorb_urls.
Proof. perm_case good_key_no_urls. Qed.

(** ** Disjointness and its propagation *)

Definition Dj (l : list rule) : Prop :=
  NoDup l /\ forall a b c, In a l -> In b l -> has_cell a c -> has_cell b c -> a = b.

Lemma Dj_keys ns l : Dj l -> (forall a, In a l -> good ns a) -> NoDup (map key_of l).
Proof.
  intros [HN HD] Hg. induction HN as [|x l Hni HN IH]; [constructor|]. simpl. constructor.
  - intros H. apply in_map_iff in H as (y & Ey & Hy).
    assert (Gx : good ns x) by (apply Hg; left; reflexivity).
    assert (Gy : good ns y) by (apply Hg; right; exact Hy).
    destruct (good_key_of ns y x Gy Gx Ey) as (E1 & E2 & E3 & E4).
    destruct Gx as (_ & _ & Kx & _). destruct (k8s_valid_has_cell x Kx) as (c & Hc).
    assert (Hc' : has_cell y c) by (destruct c; simpl in *; rewrite ?E1, ?E2, ?E3, ?E4; exact Hc).
    apply Hni. rewrite (HD x y c); auto; [left; reflexivity|right; exact Hy].
  - apply IH.
    + intros a b c Ha Hb. apply HD; right; assumption.
    + intros a Ha. apply Hg. right; exact Ha.
Qed.

(** The list of merged rules of all classes. *)
Definition merged {K : Type} (eqb : K -> K -> bool) keyf absorb (L : list rule) (ks : list K) : list rule :=
  map (fun k => mergeF absorb (cls eqb keyf L k)) ks.

Section Merged.
  Variable K : Type.
  Variable eqb : K -> K -> bool.
  Hypothesis Hk : forall a b, eqb a b = true <-> a = b.
  Variable keyf : rule -> K.
  Variable absorb : rule -> list rule -> rule.
  Hypothesis Hok : merge_ok keyf absorb.
  Hypothesis Hpm : merge_perm keyf absorb.
  Variable ns : string.

  Lemma merged_spec L ks :
    (forall a, In a L -> good ns a) -> (forall k, In k ks <-> In k (map keyf L)) ->
    (forall v, In v (merged eqb keyf absorb L ks) -> good ns v) /\
    (forall k c, In k ks -> (has_cell (mergeF absorb (cls eqb keyf L k)) c <->
       exists a, In a L /\ keyf a = k /\ has_cell a c)) /\
    (forall q, (exists v, In v (merged eqb keyf absorb L ks) /\ ra v q) <-> exists a, In a L /\ ra a q).
  Proof.
    intros Hg Hks.
    assert (Hone : forall k, In k ks -> good ns (mergeF absorb (cls eqb keyf L k)) /\
      (forall c, has_cell (mergeF absorb (cls eqb keyf L k)) c <-> exists a, In a (cls eqb keyf L k) /\ has_cell a c) /\
      (forall q, ra (mergeF absorb (cls eqb keyf L k)) q <-> exists a, In a (cls eqb keyf L k) /\ ra a q)).
    { intros k Hin. apply Hks in Hin. destruct (mergeF_cls_nonempty eqb Hk keyf L k Hin) as (r0 & rs & C).
      assert (Hc : forall a, In a (r0 :: rs) -> In a L /\ keyf a = k).
      { intros a Ha. rewrite <- C in Ha. apply cls_in in Ha; [exact Ha|exact Hk]. }
      rewrite C. apply Hok.
      - intros a Ha. apply Hg, Hc, Ha.
      - intros a Ha. rewrite (proj2 (Hc a Ha)). symmetry. apply Hc. left; reflexivity. }
    split; [|split].
    - intros v Hv. apply in_map_iff in Hv as (k & <- & Hin). apply Hone, Hin.
    - intros k c Hin. destruct (Hone k Hin) as (_ & H & _). rewrite H. split.
      + intros (a & Ha & Hc). apply cls_in in Ha as [Ha Ek]; [|exact Hk]. eauto.
      + intros (a & Ha & Ek & Hc). exists a. split; [|exact Hc]. apply cls_in; auto.
    - intros q. split.
      + intros (v & Hv & Hq). apply in_map_iff in Hv as (k & <- & Hin).
        apply (Hone k Hin) in Hq as (a & Ha & Haq). apply cls_in in Ha as [Ha _]; [|exact Hk]. eauto.
      + intros (a & Ha & Hq).
        assert (Hin : In (keyf a) ks) by (apply Hks, in_map, Ha).
        exists (mergeF absorb (cls eqb keyf L (keyf a))). split; [apply in_map_iff; eauto|].
        apply (Hone _ Hin). exists a. split; [|exact Hq]. apply cls_in; auto.
  Qed.

  Lemma merged_Dj_gen L ks :
    (forall a, In a L -> good ns a) -> (forall k, In k ks <-> In k (map keyf L)) -> NoDup ks ->
    (forall a b c, In a L -> In b L -> has_cell a c -> has_cell b c -> keyf a = keyf b) ->
    Dj (merged eqb keyf absorb L ks).
  Proof.
    intros Hg Hks HN HD. destruct (merged_spec L ks Hg Hks) as (Hgood & Hcell & _).
    assert (Hinj : forall k k' c, In k ks -> In k' ks ->
       has_cell (mergeF absorb (cls eqb keyf L k)) c -> has_cell (mergeF absorb (cls eqb keyf L k')) c -> k = k').
    { intros k k' c H1 H2 C1 C2. apply Hcell in C1 as (a & Ha & Ea & Ca); auto.
      apply Hcell in C2 as (b & Hb & Eb & Cb); auto. subst k k'. eapply HD; eauto. }
    split.
    - unfold merged. clear Hcell.
      assert (Hincl : incl ks ks) by apply incl_refl. revert Hincl.
      assert (G : forall l, NoDup l -> incl l ks -> NoDup (map (fun k => mergeF absorb (cls eqb keyf L k)) l)); [|intros _; apply G; [exact HN|apply incl_refl]].
      intros l Hl. induction Hl as [|k l Hni Hl IH]; intros Hincl; simpl; constructor.
      + intros H. apply in_map_iff in H as (k' & Ek & Hk').
        assert (Hkin : In k ks) by (apply Hincl; left; reflexivity).
        assert (Hkin' : In k' ks) by (apply Hincl; right; exact Hk').
        assert (Gv : good ns (mergeF absorb (cls eqb keyf L k))) by (apply Hgood, in_map_iff; eauto).
        destruct Gv as (_ & _ & Kv & _). destruct (k8s_valid_has_cell _ Kv) as (c & Hc).
        assert (k = k') by (apply (Hinj k k' c); auto; rewrite Ek; exact Hc). subst k'. contradiction.
      + apply IH. intros x Hx. apply Hincl. right; exact Hx.
    - intros a b c Ha Hb Ca Cb. apply in_map_iff in Ha as (k & <- & Hin). apply in_map_iff in Hb as (k' & <- & Hin').
      rewrite (Hinj k k' c); auto.
  Qed.

  Lemma merged_perm L ks L' ks' :
    (forall a, In a L -> good ns a) ->
    NoDup ks -> NoDup ks' -> (forall k, In k ks <-> In k (map keyf L)) -> (forall k, In k ks' <-> In k (map keyf L')) ->
    Permutation L L' -> Permutation (merged eqb keyf absorb L ks) (merged eqb keyf absorb L' ks').
  Proof.
    intros Hg HN HN' Hks Hks' HP.
    assert (HPk : Permutation ks ks').
    { apply NoDup_Permutation; auto. intros k. rewrite Hks, Hks'.
      split; apply Permutation_in, Permutation_map; [|symmetry]; exact HP. }
    unfold merged. rewrite (Permutation_map _ HPk). apply Permutation_refl'.
    apply map_ext. intros k. apply (Hpm ns).
    - intros a Ha. apply cls_in in Ha as [Ha _]; [|exact Hk]. apply Hg, Ha.
    - intros a b Ha Hb. apply cls_in in Ha as [_ ->]; [|exact Hk]. apply cls_in in Hb as [_ ->]; [|exact Hk]. reflexivity.
    - unfold cls. clear -HP. induction HP as [|x l l' HP IH|x y l|l l' l'' H1 IH1 H2 IH2]; simpl.
      + constructor.
      + destruct (eqb k (keyf x)); [constructor; exact IH|exact IH].
      + destruct (eqb k (keyf x)), (eqb k (keyf y)); try constructor; reflexivity.
      + eapply Permutation_trans; eassumption.
  Qed.
End Merged.

Lemma map_normalize_id l : (forall a, In a l -> nf a) -> map normalize l = l.
Proof. intros H. rewrite <- (map_id l) at 2. apply map_ext_in. exact H. Qed.

(** A whole stage on disjoint good rules. *)
Lemma stage_exact keyf absorb omap ogrp ns m :
  merge_ok keyf absorb -> is_order omap -> is_order ogrp ->
  (forall a, In a (vals m) -> good ns a) -> Dj (vals m) ->
  let m' := stage keyf absorb omap ogrp m in
  (forall a, In a (vals m') -> good ns a) /\ Dj (vals m') /\
  (forall q, (exists v, In v (vals m') /\ ra v q) <-> exists a, In a (vals m) /\ ra a q).
Proof.
  intros Hok Ho Hgo Hg [HN HD]. simpl.
  destruct (stage_shape keyf absorb omap ogrp m Ho Hgo) as (L & ks & HL & HNk & Hks & Heq).
  rewrite map_normalize_id in HL by (intros a Ha; apply (Hg a Ha)).
  assert (HgL : forall a, In a L -> good ns a) by (intros a Ha; apply Hg, (Permutation_in _ HL Ha)).
  fold (merged String.eqb keyf absorb L ks) in Heq.
  destruct (merged_spec _ _ str_eqb_spec' keyf absorb Hok ns L ks HgL Hks) as (G1 & G2 & G3).
  assert (HDj : Dj (merged String.eqb keyf absorb L ks)).
  { apply (merged_Dj_gen _ _ str_eqb_spec' keyf absorb Hok ns L ks HgL Hks HNk).
    intros a b c Ha Hb Ca Cb. f_equal. apply (HD a b c); auto; eapply Permutation_in; eauto. }
  rewrite Heq, build_distinct by (apply (Dj_keys ns); assumption).
  unfold vals. rewrite map_map. simpl. rewrite map_id. split; [exact G1|]. split; [exact HDj|].
  intros q. rewrite G3. split; intros (a & Ha & Hq); exists a; (split; [|exact Hq]).
  - exact (Permutation_in _ HL Ha).
  - exact (Permutation_in _ (Permutation_sym HL) Ha).
Qed.

Lemma stage_perm keyf absorb omap ogrp omap' ogrp' ns m m' :
  merge_ok keyf absorb -> merge_perm keyf absorb ->
  is_order omap -> is_order ogrp -> is_order omap' -> is_order ogrp' ->
  (forall a, In a (vals m) -> good ns a) -> Dj (vals m) -> Permutation (vals m) (vals m') ->
  Permutation (vals (stage keyf absorb omap ogrp m)) (vals (stage keyf absorb omap' ogrp' m')).
Proof.
  intros Hok Hpm Ho Hgo Ho' Hgo' Hg [HN HD] HP.
  destruct (stage_shape keyf absorb omap ogrp m Ho Hgo) as (L & ks & HL & HNk & Hks & Heq).
  destruct (stage_shape keyf absorb omap' ogrp' m' Ho' Hgo') as (L' & ks' & HL' & HNk' & Hks' & Heq').
  assert (Hg' : forall a, In a (vals m') -> good ns a) by (intros a Ha; apply Hg, (Permutation_in _ (Permutation_sym HP) Ha)).
  rewrite map_normalize_id in HL by (intros a Ha; apply (Hg a Ha)).
  rewrite map_normalize_id in HL' by (intros a Ha; apply (Hg' a Ha)).
  assert (HgL : forall a, In a L -> good ns a) by (intros a Ha; apply Hg, (Permutation_in _ HL Ha)).
  assert (HgL' : forall a, In a L' -> good ns a) by (intros a Ha; apply Hg', (Permutation_in _ HL' Ha)).
  fold (merged String.eqb keyf absorb L ks) in Heq. fold (merged String.eqb keyf absorb L' ks') in Heq'.
  assert (HDL : forall a b c, In a L -> In b L -> has_cell a c -> has_cell b c -> keyf a = keyf b).
  { intros a b c Ha Hb Ca Cb. f_equal. apply (HD a b c); auto; eapply Permutation_in; eauto. }
  assert (HLL : Permutation L L') by (rewrite HL, HL'; exact HP).
  assert (HDL' : forall a b c, In a L' -> In b L' -> has_cell a c -> has_cell b c -> keyf a = keyf b).
  { intros a b c Ha Hb. apply HDL; [exact (Permutation_in _ (Permutation_sym HLL) Ha)|exact (Permutation_in _ (Permutation_sym HLL) Hb)]. }
  assert (HDj := merged_Dj_gen _ _ str_eqb_spec' keyf absorb Hok ns L ks HgL Hks HNk HDL).
  assert (HDj' := merged_Dj_gen _ _ str_eqb_spec' keyf absorb Hok ns L' ks' HgL' Hks' HNk' HDL').
  destruct (merged_spec _ _ str_eqb_spec' keyf absorb Hok ns L ks HgL Hks) as (G1 & _ & _).
  destruct (merged_spec _ _ str_eqb_spec' keyf absorb Hok ns L' ks' HgL' Hks') as (G1' & _ & _).
  rewrite Heq, Heq', !build_distinct by (eapply Dj_keys; eassumption).
  unfold vals. rewrite !map_map. simpl. rewrite !map_id.
  apply (merged_perm _ _ str_eqb_spec' keyf absorb Hpm ns); assumption.
Qed.

(** ** The first pass *)

(** Rules as they enter NormalizeRules: at most one resource each. *)
Definition entering (ns : string) (r : rule) : Prop :=
  wf r /\ k8s_valid r /\ r_ns r = ns /\ (r_resources r = [] \/ exists x, r_resources r = [x]).

Lemma k8s_valid_prep r : k8s_valid r -> k8s_valid (prep r).
Proof.
  unfold k8s_valid, prep, normalize, fix_core; simpl. change remove_dup_and_sort with rds.
  rewrite !rds_nil_iff.
  intros [(A & B & C & D)|(A & B & C)]; [left|right]; repeat split; auto.
  - rewrite B; reflexivity.
  - intros H. apply map_eq_nil in H. contradiction.
Qed.

Lemma good_prep ns r : entering ns r -> good ns (prep r).
Proof.
  intros (W & K & N & _). split; [apply wf_normalize, wf_fix_core, W|].
  split; [apply normalize_nf|]. split; [apply k8s_valid_prep, K|exact N].
Qed.

(** Compatible rules that share a cell have the same key. *)
Lemma compatible_same_key ns a b c :
  entering ns a -> entering ns b -> compatible a b ->
  has_cell (prep a) c -> has_cell (prep b) c -> key_of (prep a) = key_of (prep b).
Proof.
  intros (Wa & Ka & Na & Ra) (Wb & Kb & Nb & Rb) HC Ca Cb.
  destruct HC as [HC1 HC2]; [congruence|].
  unfold key_of, prep, normalize; simpl. change remove_dup_and_sort with rds.
  destruct c as [g x n|u]; simpl in Ca, Cb.
  - change remove_dup_and_sort with rds in Ca, Cb.
    destruct Ca as (A1 & A2 & A3), Cb as (B1 & B2 & B3).
    rewrite rds_in in A1, A2, B1, B2.
    assert (Er : r_resources a = r_resources b).
    { destruct Ra as [Ra|(y & Ra)]; rewrite Ra in *; [contradiction|].
      destruct Rb as [Rb|(z & Rb)]; rewrite Rb in *; [contradiction|].
      destruct A2 as [A2|[]], B2 as [B2|[]]. congruence. }
    assert (En : same_set (r_names a) (r_names b)).
    { intros y. rewrite <- (rds_in y (r_names a)), <- (rds_in y (r_names b)). rewrite A3, B3. reflexivity. }
    assert (Eg : same_set (map core_name (r_groups a)) (map core_name (r_groups b))).
    { apply HC1; [exact En|exists x; auto|exists g; auto]. }
    assert (Eu : r_urls a = r_urls b).
    { assert (Qa : r_resources a <> []) by (intros C; rewrite C in A2; contradiction).
      assert (Qb : r_resources b <> []) by (intros C; rewrite C in B2; contradiction).
      destruct Ka as [(?&?&?&?)|(?&?&?)]; destruct Kb as [(?&?&?&?)|(?&?&?)]; congruence. }
    f_equal; f_equal; try (apply rds_ext; assumption); try (rewrite Er; reflexivity); rewrite Eu; reflexivity.
  - change remove_dup_and_sort with rds in Ca, Cb. rewrite rds_in in Ca, Cb.
    assert (Eu : same_set (r_urls a) (r_urls b)) by (apply HC2; exists u; auto).
    destruct Ka as [(K1 & K2 & K3 & K4)|(K1 & K2 & K3)]; [|rewrite K1 in Ca; contradiction].
    destruct Kb as [(L1 & L2 & L3 & L4)|(L1 & L2 & L3)]; [|rewrite L1 in Cb; contradiction].
    rewrite K2, K3, K4, L2, L3, L4. f_equal. f_equal. apply rds_ext, Eu.
Qed.

Lemma first_pass_exact ns rules :
  (forall a, In a rules -> entering ns a) ->
  (forall a b, In a rules -> In b rules -> compatible a b) ->
  let m1 := fold_left merge_same_key rules [] in
  (forall a, In a (vals m1) -> good ns a) /\ Dj (vals m1) /\
  (forall q, (exists v, In v (vals m1) /\ ra v q) <-> exists a, In a rules /\ ra (fix_core a) q).
Proof.
  intros Hen Hco. simpl. destruct (first_pass rules) as (ks & HN & Hks & Heq).
  assert (HgL : forall a, In a (map prep rules) -> good ns a).
  { intros a Ha. apply in_map_iff in Ha as (b & <- & Hb). apply good_prep, Hen, Hb. }
  assert (Hv : vals (fold_left merge_same_key rules []) = merged rkey_eqb key_of absorb_verbs (map prep rules) ks).
  { rewrite Heq. unfold vals, merged. rewrite map_map. reflexivity. }
  rewrite Hv. destruct (merged_spec _ _ rkeq key_of absorb_verbs merge_ok_verbs ns _ ks HgL Hks) as (G1 & G2 & G3).
  split; [exact G1|]. split.
  - apply (merged_Dj_gen _ _ rkeq key_of absorb_verbs merge_ok_verbs ns _ ks HgL Hks HN).
    intros a b c Ha Hb Ca Cb. apply in_map_iff in Ha as (a' & <- & Ha). apply in_map_iff in Hb as (b' & <- & Hb).
    eapply compatible_same_key; eauto.
  - intros q. rewrite G3. split.
    + intros (a & Ha & Hq). apply in_map_iff in Ha as (b & <- & Hb). exists b. split; [exact Hb|].
      exact (proj1 (ra_normalize _ _) Hq).
    + intros (a & Ha & Hq). exists (prep a). split; [apply in_map, Ha|]. apply ra_normalize, Hq.
Qed.

Lemma first_pass_perm ns rules rules' :
  (forall a, In a rules -> entering ns a) -> Permutation rules rules' ->
  Permutation (vals (fold_left merge_same_key rules [])) (vals (fold_left merge_same_key rules' [])).
Proof.
  intros Hen HP.
  destruct (first_pass rules) as (ks & HN & Hks & Heq).
  destruct (first_pass rules') as (ks' & HN' & Hks' & Heq').
  assert (HgL : forall a, In a (map prep rules) -> good ns a).
  { intros a Ha. apply in_map_iff in Ha as (b & <- & Hb). apply good_prep, Hen, Hb. }
  rewrite Heq, Heq'. unfold vals. rewrite !map_map. simpl.
  apply (merged_perm _ _ rkeq key_of absorb_verbs merge_perm_verbs ns (map prep rules) ks (map prep rules') ks'); auto.
  apply Permutation_map, HP.
Qed.

(** ** NormalizeRules *)

Lemma final_map_exact o ns rules :
  valid_orders o ->
  (forall a, In a rules -> entering ns a) ->
  (forall a b, In a rules -> In b rules -> compatible a b) ->
  (forall a, In a (vals (final_map o rules)) -> good ns a) /\ Dj (vals (final_map o rules)) /\
  (forall q, (exists v, In v (vals (final_map o rules)) /\ ra v q) <-> exists a, In a rules /\ ra (fix_core a) q).
Proof.
  intros (O1 & O2 & O3 & O4 & O5 & O6 & O7) Hen Hco.
  destruct (first_pass_exact ns rules Hen Hco) as (A1 & B1 & C1).
  destruct (stage_exact key_no_resources absorb_resources _ _ ns _ merge_ok_resources O1 O2 A1 B1) as (A2 & B2 & C2).
  destruct (stage_exact key_no_groups absorb_groups _ _ ns _ merge_ok_groups O3 O4 A2 B2) as (A3 & B3 & C3).
  destruct (stage_exact key_no_urls absorb_urls _ _ ns _ merge_ok_urls O5 O6 A3 B3) as (A4 & B4 & C4).
  unfold final_map. split; [exact A4|]. split; [exact B4|].
  intros q. rewrite C4, C3, C2, C1. reflexivity.
Qed.

Lemma normalize_rules_exact o ns rules :
  valid_orders o ->
  (forall a, In a rules -> entering ns a) ->
  (forall a b, In a rules -> In b rules -> compatible a b) ->
  forall q, (exists p, In p (normalize_rules o rules) /\ policy_allows p q) <-> exists a, In a rules /\ ra (fix_core a) q.
Proof.
  intros HO Hen Hco q. destruct (final_map_exact o ns rules HO Hen Hco) as (_ & _ & H). rewrite <- H.
  split.
  - intros (p & Hp & Hq). apply normalize_rules_in in Hp as (r & Hr & ->). exists r. split; [exact Hr|].
    apply star_verbs_ra. exact Hq.
  - intros (r & Hr & Hq). exists (to_rule (star_verbs r)). split.
    + apply normalize_rules_in_conv; [|exact Hr]. apply HO.
    + apply (proj2 (star_verbs_ra r q)) in Hq. exact Hq.
Qed.

Lemma final_map_keys o rules kr :
  is_order (o_url_map o) -> is_order (o_url_groups o) ->
  In kr (final_map o rules) -> fst kr = key_of (snd kr).
Proof.
  intros O1 O2 H. unfold final_map in H.
  destruct (stage_shape key_no_urls absorb_urls _ _ (stage key_no_groups absorb_groups (o_grp_map o) (o_grp_groups o)
      (stage key_no_resources absorb_resources (o_res_map o) (o_res_groups o)
        (fold_left merge_same_key rules []))) O1 O2) as (L & ks & _ & _ & _ & Heq).
  rewrite Heq in H. apply build_in in H. tauto.
Qed.

Lemma map_entries_keys m : (forall kr, In kr m -> fst kr = key_of (snd kr)) -> mkeys m = map key_of (vals m).
Proof.
  intros H. unfold mkeys, vals. rewrite map_map. apply map_ext_in. exact H.
Qed.

Lemma final_map_nodup o rules :
  is_order (o_url_map o) -> is_order (o_url_groups o) -> NoDup (mkeys (final_map o rules)).
Proof.
  intros O1 O2. unfold final_map.
  destruct (stage_shape key_no_urls absorb_urls _ _ (stage key_no_groups absorb_groups (o_grp_map o) (o_grp_groups o)
      (stage key_no_resources absorb_resources (o_res_map o) (o_res_groups o)
        (fold_left merge_same_key rules []))) O1 O2) as (L & ks & _ & _ & _ & Heq).
  rewrite Heq. apply build_nodup_keys.
Qed.

(** The output is the values of the last map, sorted by key string. *)
Definition rule_string (r : rule) : string := key_string (key_of r).
Definition kless (a b : rkey) : bool := str_ltb (key_string a) (key_string b).

Lemma kless_sorted l : StronglySorted (fun a b => str_leb (key_string a) (key_string b) = true) (sort_by kless l).
Proof.
  assert (H := sort_by_sorted rkey kless).
  assert (H' : StronglySorted (le_of rkey kless) (sort_by kless l)).
  { apply H.
    - intros x y z. apply str_ltb_trans.
    - intros x. apply str_ltb_irrefl.
    - intros x y z. apply str_ltb_negtrans. }
  clear H. induction H' as [|x l' HS IH HF]; constructor; [exact IH|].
  eapply Forall_impl; [|exact HF]. intros y Hy. unfold le_of, kless in Hy. unfold str_leb. rewrite Hy. reflexivity.
Qed.

Lemma wf_key_string_inj ns a b : good ns a -> good ns b -> rule_string a = rule_string b -> key_of a = key_of b.
Proof.
  intros (Wa & _) (Wb & _) H. destruct Wa as [(A1 & A2 & A3 & A4 & A5) _]. destruct Wb as [(B1 & B2 & B3 & B4 & B5) _].
  unfold rule_string, key_string, key_of in H; simpl in H.
  apply fmt4_inj in H as (H1 & H2 & H3 & H4); try (apply cleanl_sp; assumption).
  unfold key_of. congruence.
Qed.

Lemma normalize_rules_deterministic o o' ns rules rules' :
  valid_orders o -> valid_orders o' ->
  (forall a, In a rules -> entering ns a) ->
  (forall a b, In a rules -> In b rules -> compatible a b) ->
  Permutation rules rules' ->
  normalize_rules o rules = normalize_rules o' rules'.
Proof.
  intros HO HO' Hen Hco HP.
  assert (Hen' : forall a, In a rules' -> entering ns a) by (intros a Ha; apply Hen, (Permutation_in _ (Permutation_sym HP) Ha)).
  assert (Hco' : forall a b, In a rules' -> In b rules' -> compatible a b)
    by (intros a b Ha Hb; apply Hco; [exact (Permutation_in _ (Permutation_sym HP) Ha)|exact (Permutation_in _ (Permutation_sym HP) Hb)]).
  pose proof (final_map_exact o ns rules HO Hen Hco) as (G & D & _).
  pose proof (final_map_exact o' ns rules' HO' Hen' Hco') as (G' & D' & _).
  destruct HO as (O1 & O2 & O3 & O4 & O5 & O6 & O7). destruct HO' as (P1 & P2 & P3 & P4 & P5 & P6 & P7).
  assert (HPm : Permutation (vals (final_map o rules)) (vals (final_map o' rules'))).
  { unfold final_map.
    destruct (first_pass_exact ns rules Hen Hco) as (A1 & B1 & _).
    pose proof (first_pass_perm ns rules rules' Hen HP) as Q1.
    destruct (stage_exact key_no_resources absorb_resources _ _ ns _ merge_ok_resources O1 O2 A1 B1) as (A2 & B2 & _).
    pose proof (stage_perm key_no_resources absorb_resources _ _ _ _ ns _ _ merge_ok_resources merge_perm_resources O1 O2 P1 P2 A1 B1 Q1) as Q2.
    destruct (stage_exact key_no_groups absorb_groups _ _ ns _ merge_ok_groups O3 O4 A2 B2) as (A3 & B3 & _).
    pose proof (stage_perm key_no_groups absorb_groups _ _ _ _ ns _ _ merge_ok_groups merge_perm_groups O3 O4 P3 P4 A2 B2 Q2) as Q3.
    exact (stage_perm key_no_urls absorb_urls _ _ _ _ ns _ _ merge_ok_urls merge_perm_urls O5 O6 P5 P6 A3 B3 Q3). }
  unfold normalize_rules. fold (final_map o rules). fold (final_map o' rules').
  pose proof (map_entries_keys (final_map o rules) (fun kr => final_map_keys o rules kr O5 O6)) as HK.
  pose proof (map_entries_keys (final_map o' rules') (fun kr => final_map_keys o' rules' kr P5 P6)) as HK'.
  assert (HKP : Permutation (mkeys (final_map o rules)) (mkeys (final_map o' rules'))).
  { rewrite HK, HK'. apply Permutation_map, HPm. }
  change (fun a b : rkey => str_ltb (key_string a) (key_string b)) with kless.
  assert (Ekeys : sort_by kless (o_keys o (mkeys (final_map o rules))) = sort_by kless (o_keys o' (mkeys (final_map o' rules')))).
  { apply (strongly_sorted_unique_on _ (fun a b => str_leb (key_string a) (key_string b) = true));
      [|apply kless_sorted|apply kless_sorted|].
    - intros x y Hx Hy L1 L2. apply sort_by_in in Hx, Hy.
      apply (Permutation_in _ (O7 _)) in Hx, Hy. rewrite HK in Hx, Hy.
      apply in_map_iff in Hx as (a & <- & Ha). apply in_map_iff in Hy as (b & <- & Hb).
      apply (wf_key_string_inj ns); [apply G, Ha|apply G, Hb|]. apply str_leb_antisym; assumption.
    - rewrite !sort_by_perm, (O7 _), (P7 _). exact HKP. }
  rewrite Ekeys. apply flat_map_ext. intros k.
  (* lookups agree *)
  assert (Hget : forall k r, mget rkey_eqb (final_map o rules) k = Some r <-> mget rkey_eqb (final_map o' rules') k = Some r).
  { intros k0 r0. split; intros E.
    - apply mget_in in E; [|exact rkeq]. pose proof (final_map_keys o rules _ O5 O6 E) as Ek. simpl in Ek. subst k0.
      assert (Hin : In r0 (vals (final_map o' rules'))).
      { apply (Permutation_in _ HPm). apply in_map_iff. exists (key_of r0, r0). auto. }
      apply in_map_iff in Hin as ([k1 r1] & E1 & Hin). simpl in E1. subst r1.
      pose proof (final_map_keys o' rules' _ P5 P6 Hin) as Ek1. simpl in Ek1. subst k1.
      apply mget_nodup; [exact rkeq|apply final_map_nodup; assumption|exact Hin].
    - apply mget_in in E; [|exact rkeq]. pose proof (final_map_keys o' rules' _ P5 P6 E) as Ek. simpl in Ek. subst k0.
      assert (Hin : In r0 (vals (final_map o rules))).
      { apply (Permutation_in _ (Permutation_sym HPm)). apply in_map_iff. exists (key_of r0, r0). auto. }
      apply in_map_iff in Hin as ([k1 r1] & E1 & Hin). simpl in E1. subst r1.
      pose proof (final_map_keys o rules _ O5 O6 Hin) as Ek1. simpl in Ek1. subst k1.
      apply mget_nodup; [exact rkeq|apply final_map_nodup; assumption|exact Hin]. }
  destruct (mget rkey_eqb (final_map o rules) k) as [r|] eqn:E.
  - apply Hget in E. rewrite E. reflexivity.
  - destruct (mget rkey_eqb (final_map o' rules') k) as [r|] eqn:E'; [|reflexivity].
    apply Hget in E'. congruence.
Qed.
