(** * Proofs about the rbac model. *)

From Coq Require Import List String Ascii Bool Permutation Sorting.Sorted Lia.
From Verif Require Import GoLib GoLibFacts RbacModel RbacSpec.
Import ListNotations.
Open Scope string_scope.
Open Scope list_scope.

(** ** Keys *)

Lemma rkey_eqb_spec a b : rkey_eqb a b = true <-> a = b.
Proof.
  unfold rkey_eqb. rewrite !andb_true_iff, !String.eqb_eq. destruct a, b; simpl. split.
  - intros (((-> & ->) & ->) & ->). reflexivity.
  - intros H; injection H; auto.
Qed.

Definition rkeq := rkey_eqb_spec.

Lemma str_eqb_spec' a b : String.eqb a b = true <-> a = b.
Proof. apply String.eqb_eq. Qed.

(** Splitting at the first space. *)
Lemma cut_space a b a' b' :
  has_char " " a = false -> has_char " " a' = false ->
  (a ++ " + " ++ b)%string = (a' ++ " + " ++ b')%string -> a = a' /\ b = b'.
Proof.
  intros Ha Ha' H. change (" + " ++ b)%string with (String " " ("+ " ++ b)) in H.
  change (" + " ++ b')%string with (String " " ("+ " ++ b')) in H.
  apply cut_at_char_unique in H as [-> H]; auto. injection H; auto.
Qed.

Lemma fmt4_inj a b c d a' b' c' d' :
  has_char " " a = false -> has_char " " a' = false ->
  has_char " " b = false -> has_char " " b' = false ->
  has_char " " c = false -> has_char " " c' = false ->
  fmt4 a b c d = fmt4 a' b' c' d' -> a = a' /\ b = b' /\ c = c' /\ d = d'.
Proof.
  unfold fmt4. intros. apply cut_space in H5 as [-> H5]; auto.
  apply cut_space in H5 as [-> H5]; auto. apply cut_space in H5 as [-> H5]; auto.
Qed.

Definition cleanl (l : list string) : Prop := Forall clean l.

Lemma cleanl_amp l : cleanl l -> Forall (fun s => has_char "&" s = false) l.
Proof. intros H; eapply Forall_impl; [|exact H]. intros s [H1 _]; exact H1. Qed.
Lemma cleanl_sp l : cleanl l -> has_char " " (join "&" l) = false.
Proof.
  intros H. apply join_has_char; [reflexivity|].
  eapply Forall_impl; [|exact H]. intros s [_ H1]; exact H1.
Qed.

(** Equal up to the confusion of [[]] with [[""]]. *)
Definition geq (a b : list string) : Prop := a = b \/ (a = [] /\ b = [""]) \/ (a = [""] /\ b = []).

Lemma join_geq a b : cleanl a -> cleanl b -> join "&" a = join "&" b -> geq a b.
Proof. intros Ha Hb H. apply (join_inj "&"%char); auto using cleanl_amp. Qed.

Lemma geq_eq a b : ~ In "" a -> ~ In "" b -> geq a b -> a = b.
Proof.
  intros Ha Hb [H|[[-> ->]|[-> ->]]]; [exact H| |]; exfalso; [apply Hb|apply Ha]; left; reflexivity.
Qed.

(** ** Normal forms of lists *)

Definition rds := remove_dup_and_sort.

Lemma rds_in x l : In x (rds l) <-> In x l.
Proof. unfold rds, remove_dup_and_sort. rewrite sort_strings_in. apply dedup_in. Qed.

Lemma rds_nodup l : NoDup (rds l).
Proof.
  unfold rds, remove_dup_and_sort. eapply Permutation_NoDup; [symmetry; apply sort_strings_perm|apply dedup_nodup].
Qed.

Lemma rds_sorted l : StronglySorted str_le (rds l).
Proof. apply sort_strings_sorted. Qed.

Lemma rds_ext l1 l2 : (forall x, In x l1 <-> In x l2) -> rds l1 = rds l2.
Proof. apply sort_dedup_ext. Qed.

Lemma rds_idem l : rds (rds l) = rds l.
Proof. apply rds_ext. intros x; apply rds_in. Qed.

Lemma rds_nil_iff l : rds l = [] <-> l = [].
Proof.
  split; [|intros ->; reflexivity].
  destruct l as [|x l]; [reflexivity|]. intros H.
  assert (Hi : In x (rds (x :: l))) by (apply rds_in; left; reflexivity). rewrite H in Hi. contradiction.
Qed.

Lemma rds_forall (P : string -> Prop) l : Forall P l -> Forall P (rds l).
Proof. rewrite !Forall_forall. intros H x Hx. apply H, rds_in, Hx. Qed.

Definition nf (r : rule) : Prop := normalize r = r.

Lemma normalize_nf r : nf (normalize r).
Proof.
  unfold nf, normalize; simpl. change remove_dup_and_sort with rds. rewrite !rds_idem. reflexivity.
Qed.

Lemma nf_fields r : nf r ->
  rds (r_groups r) = r_groups r /\ rds (r_resources r) = r_resources r /\ rds (r_names r) = r_names r /\
  rds (r_verbs r) = r_verbs r /\ rds (r_urls r) = r_urls r.
Proof.
  unfold nf, normalize. intros H. destruct r as [g s n v u ns]; simpl in *.
  injection H as H1 H2 H3 H4 H5. unfold rds. auto.
Qed.

(** ** What a rule grants *)

Definition ra (r : rule) (q : request) : Prop :=
  rule_allows (r_groups r) (r_verbs r) (r_resources r) (r_names r) (r_urls r) q.

Lemma rule_allows_ext g1 v1 s1 n1 u1 g2 v2 s2 n2 u2 q :
  same_set g1 g2 -> same_set v1 v2 -> same_set s1 s2 -> same_set n1 n2 -> same_set u1 u2 ->
  rule_allows g1 v1 s1 n1 u1 q -> rule_allows g2 v2 s2 n2 u2 q.
Proof.
  unfold same_set. intros Hg Hv Hs Hn Hu. destruct q as [g r sub n v|p v]; simpl.
  - intros ((x1 & A1 & B1) & (x2 & A2 & B2) & (x3 & A3 & B3) & A4).
    repeat split.
    + exists x1; split; [apply Hv|]; assumption.
    + exists x2; split; [apply Hg|]; assumption.
    + exists x3; split; [apply Hs|]; assumption.
    + destruct A4 as [->|A4]; [left|right; apply Hn, A4].
      destruct n2 as [|y n2]; [reflexivity|]. exfalso. apply (proj2 (Hn y)). left; reflexivity.
  - intros ((x1 & A1 & B1) & (x2 & A2 & B2)). split.
    + exists x1; split; [apply Hv|]; assumption.
    + exists x2; split; [apply Hu|]; assumption.
Qed.

Lemma same_set_rds l : same_set (rds l) l.
Proof. intros x. apply rds_in. Qed.
Lemma same_set_refl l : same_set l l.
Proof. intros x; reflexivity. Qed.
Lemma same_set_sym a b : same_set a b -> same_set b a.
Proof. intros H x; symmetry; apply H. Qed.
Lemma same_set_rds' l : same_set l (rds l).
Proof. apply same_set_sym, same_set_rds. Qed.

Lemma ra_normalize r q : ra (normalize r) q <-> ra r q.
Proof.
  unfold ra, normalize; simpl. change remove_dup_and_sort with rds.
  split; apply rule_allows_ext; try apply same_set_rds; apply same_set_rds'.
Qed.

(** ** Well-formedness of intermediate rules *)

Definition wf (r : rule) : Prop := clean_rule r /\ no_empty r.

Lemma wf_normalize r : wf r -> wf (normalize r).
Proof.
  unfold wf, clean_rule, no_empty, normalize; simpl. change remove_dup_and_sort with rds.
  intros ((H1 & H2 & H3 & H4 & H5) & (E1 & E2 & E3 & E4)).
  repeat split; try (apply rds_forall; assumption); rewrite rds_in; assumption.
Qed.

Lemma clean_core g : clean g -> clean (core_name g).
Proof. unfold core_name. destruct (String.eqb g "core"); [|auto]. intros _. split; reflexivity. Qed.

Lemma fix_core_groups r : r_groups (fix_core r) = map core_name (r_groups r).
Proof. reflexivity. Qed.

Lemma wf_fix_core r : wf r -> wf (fix_core r).
Proof.
  unfold wf, clean_rule, no_empty. intros ((H1 & H2 & H3 & H4 & H5) & E).
  split; [|exact E]. rewrite fix_core_groups. repeat split; auto.
  rewrite Forall_map. eapply Forall_impl; [|exact H1]. intros g; apply clean_core.
Qed.

(** ** Keys of well-formed rules determine the fields *)

Lemma key_of_inj r1 r2 : wf r1 -> wf r2 -> key_of r1 = key_of r2 ->
  geq (r_groups r1) (r_groups r2) /\ r_resources r1 = r_resources r2 /\
  r_names r1 = r_names r2 /\ r_urls r1 = r_urls r2.
Proof.
  intros [(A1 & A2 & A3 & A4 & A5) (E1 & E2 & E3 & E4)] [(B1 & B2 & B3 & B4 & B5) (F1 & F2 & F3 & F4)] H.
  unfold key_of in H. injection H as H1 H2 H3 H4.
  apply join_geq in H1, H2, H3, H4; auto.
  repeat split; [exact H1| | |]; apply geq_eq; auto.
Qed.

Lemma key_no_resources_inj r1 r2 : wf r1 -> wf r2 -> key_no_resources r1 = key_no_resources r2 ->
  geq (r_groups r1) (r_groups r2) /\ r_names r1 = r_names r2 /\
  r_urls r1 = r_urls r2 /\ r_verbs r1 = r_verbs r2.
Proof.
  intros [(A1 & A2 & A3 & A4 & A5) (E1 & E2 & E3 & E4)] [(B1 & B2 & B3 & B4 & B5) (F1 & F2 & F3 & F4)] H.
  unfold key_no_resources, key_of in H; simpl in H.
  apply fmt4_inj in H as (H1 & H2 & H3 & H4); try (apply cleanl_sp; assumption).
  apply join_geq in H1, H2, H3, H4; auto.
  repeat split; [exact H1| | |]; apply geq_eq; auto.
Qed.

Lemma key_no_groups_inj r1 r2 : wf r1 -> wf r2 -> key_no_groups r1 = key_no_groups r2 ->
  r_resources r1 = r_resources r2 /\ r_names r1 = r_names r2 /\
  r_urls r1 = r_urls r2 /\ r_verbs r1 = r_verbs r2.
Proof.
  intros [(A1 & A2 & A3 & A4 & A5) (E1 & E2 & E3 & E4)] [(B1 & B2 & B3 & B4 & B5) (F1 & F2 & F3 & F4)] H.
  unfold key_no_groups, key_of in H; simpl in H.
  apply fmt4_inj in H as (H1 & H2 & H3 & H4); try (apply cleanl_sp; assumption).
  apply join_geq in H1, H2, H3, H4; auto.
  repeat split; apply geq_eq; auto.
Qed.

Lemma key_no_urls_inj r1 r2 : wf r1 -> wf r2 -> key_no_urls r1 = key_no_urls r2 ->
  geq (r_groups r1) (r_groups r2) /\ r_resources r1 = r_resources r2 /\
  r_names r1 = r_names r2 /\ r_verbs r1 = r_verbs r2.
Proof.
  intros [(A1 & A2 & A3 & A4 & A5) (E1 & E2 & E3 & E4)] [(B1 & B2 & B3 & B4 & B5) (F1 & F2 & F3 & F4)] H.
  unfold key_no_urls, key_of in H; simpl in H.
  apply fmt4_inj in H as (H1 & H2 & H3 & H4); try (apply cleanl_sp; assumption).
  apply join_geq in H1, H2, H3, H4; auto.
  repeat split; [exact H1| | |]; apply geq_eq; auto.
Qed.

(** ** The shape of a stage *)

Definition vals (m : rmap) : list rule := map snd m.

(** The merged rule of one class. *)
Definition mergeF (absorb : rule -> list rule -> rule) (l : list rule) : rule :=
  match l with
  | [] => mkRule [] [] [] [] [] ""
  | r0 :: rs => normalize (absorb r0 rs)
  end.

Definition cls {K : Type} (eqb : K -> K -> bool) (keyf : rule -> K) (l : list rule) (k : K) : list rule :=
  filter (fun x => eqb k (keyf x)) l.

Definition build (vs : list rule) : rmap :=
  fold_left (fun acc v => mset rkey_eqb acc (key_of v) v) vs [].

Lemma group_by_map {K : Type} (eqb : K -> K -> bool) (Hk : forall a b, eqb a b = true <-> a = b)
  (keyf : rule -> K) l :
  group_by K rule eqb keyf l = map (fun k => (k, cls eqb keyf l k)) (mkeys (group_by K rule eqb keyf l)).
Proof.
  unfold mkeys. rewrite map_map.
  rewrite <- (map_id (group_by K rule eqb keyf l)) at 1. apply map_ext_in.
  intros [k vs] Hin. simpl. apply group_by_in in Hin as [-> _]; [reflexivity|exact Hk].
Qed.

Lemma fold_left_map_in (A B C : Type) (f : C -> B -> C) (g : A -> B) l acc :
  fold_left f (map g l) acc = fold_left (fun a x => f a (g x)) l acc.
Proof. revert acc; induction l as [|x l IH]; simpl; intros; [reflexivity|apply IH]. Qed.

Lemma fold_left_ext_in (A B : Type) (f g : A -> B -> A) l acc :
  (forall a x, In x l -> f a x = g a x) -> fold_left f l acc = fold_left g l acc.
Proof.
  revert acc; induction l as [|x l IH]; simpl; intros acc H; [reflexivity|].
  rewrite H by (left; reflexivity). apply IH. intros; apply H; right; assumption.
Qed.

Lemma stage_shape keyf absorb omap ogrp m :
  is_order omap -> is_order ogrp ->
  exists L ks,
    Permutation L (map normalize (vals m)) /\ NoDup ks /\
    (forall k, In k ks <-> In k (map keyf L)) /\
    stage keyf absorb omap ogrp m = build (map (fun k => mergeF absorb (cls String.eqb keyf L k)) ks).
Proof.
  intros Hm Hg.
  set (L := map normalize (vals (omap m))).
  set (G := group_by string rule String.eqb keyf L).
  assert (HG : stage_group keyf omap m = G).
  { unfold stage_group, G, group_by, L, vals. rewrite map_map, fold_left_map_in. reflexivity. }
  assert (Hshape : G = map (fun k => (k, cls String.eqb keyf L k)) (mkeys G))
    by (apply group_by_map, str_eqb_spec').
  exists L, (map fst (ogrp G)). split; [|split; [|split]].
  - unfold L, vals. apply Permutation_map, Permutation_map, Hm.
  - eapply Permutation_NoDup; [|apply (group_by_nodup _ _ _ str_eqb_spec' keyf L)].
    unfold mkeys. apply Permutation_map. symmetry. apply Hg.
  - intros k. rewrite <- (group_by_keys _ _ _ str_eqb_spec' keyf L k). fold G. unfold mkeys.
    split; apply Permutation_in; apply Permutation_map; [|symmetry]; apply Hg.
  - unfold stage. rewrite HG. unfold stage_merge, build. rewrite !map_map, fold_left_map_in.
    apply fold_left_ext_in. intros acc [k vs] Hin. simpl.
    assert (HinG : In (k, vs) G) by (eapply Permutation_in; [apply Hg|exact Hin]).
    apply group_by_in in HinG as [-> Hne]; [|exact str_eqb_spec'].
    unfold cls. destruct (filter _ L) as [|r0 rs]; [congruence|]. reflexivity.
Qed.

(** The first pass has the same shape, with the full key and the verbs. *)
Definition absorb_verbs (r0 : rule) (rs : list rule) : rule :=
  mkRule (r_groups r0) (r_resources r0) (r_names r0) (r_verbs r0 ++ flat_map r_verbs rs) (r_urls r0) (r_ns r0).

Definition prep (r : rule) : rule := normalize (fix_core r).

Lemma mergeF_verbs_snoc r0 rs r :
  nf r0 ->
  add_verbs (mergeF absorb_verbs (r0 :: rs)) (r_verbs r) = mergeF absorb_verbs (r0 :: rs ++ [r]).
Proof.
  intros H0. unfold mergeF, add_verbs, absorb_verbs, normalize; simpl.
  change remove_dup_and_sort with rds. f_equal.
  apply rds_ext. intros x. rewrite flat_map_app. simpl. rewrite !in_app_iff, rds_in, !in_app_iff. simpl. tauto.
Qed.

Lemma mergeF_verbs_one r0 : nf r0 -> mergeF absorb_verbs [r0] = r0.
Proof.
  intros H. unfold mergeF, absorb_verbs; simpl. rewrite app_nil_r.
  destruct r0; exact H.
Qed.

Lemma key_mergeF_verbs r0 rs : nf r0 -> key_of (mergeF absorb_verbs (r0 :: rs)) = key_of r0.
Proof.
  intros H. apply nf_fields in H as (H1 & H2 & H3 & H4 & H5).
  unfold mergeF, absorb_verbs, normalize, key_of; simpl. unfold rds in *. rewrite H1, H2, H3, H5. reflexivity.
Qed.

Lemma mget_map_keys (K : Type) eqb (Hk : forall a b : K, eqb a b = true <-> a = b) (f : K -> rule) ks k :
  mget eqb (map (fun k => (k, f k)) ks) k = if existsb (eqb k) ks then Some (f k) else None.
Proof.
  induction ks as [|k' ks IH]; simpl; [reflexivity|].
  destruct (eqb k k') eqn:E; simpl; [apply Hk in E; congruence|exact IH].
Qed.

Lemma mset_map_keys (K : Type) eqb (Hk : forall a b : K, eqb a b = true <-> a = b) (f g : K -> rule) ks k v :
  NoDup ks ->
  g k = v -> (forall k', k' <> k -> g k' = f k') ->
  mset eqb (map (fun k => (k, f k)) ks) k v =
  map (fun k => (k, g k)) (if existsb (eqb k) ks then ks else ks ++ [k]).
Proof.
  intros HN Hv Ho. induction ks as [|k' ks IH]; simpl.
  - rewrite Hv. reflexivity.
  - inversion HN as [|? ? Hni HN']; subst. destruct (eqb k k') eqn:E; simpl.
    + apply Hk in E. subst k'. f_equal.
      apply map_ext_in. intros a Ha. f_equal. symmetry. apply Ho. intros ->. contradiction.
    + rewrite IH by assumption.
      assert (Hkk : k' <> k) by (intros ->; rewrite (proj2 (Hk k k) eq_refl) in E; discriminate).
      destruct (existsb (eqb k) ks); simpl; rewrite (Ho _ Hkk); reflexivity.
Qed.

Lemma cls_snoc {K : Type} (eqb : K -> K -> bool) keyf l x k :
  cls eqb keyf (l ++ [x]) k = if eqb k (keyf x) then cls eqb keyf l k ++ [x] else cls eqb keyf l k.
Proof.
  unfold cls. rewrite filter_app. simpl. destruct (eqb k (keyf x)); [reflexivity|apply app_nil_r].
Qed.

Lemma first_pass rules :
  exists ks, NoDup ks /\ (forall k, In k ks <-> In k (map key_of (map prep rules))) /\
  fold_left merge_same_key rules [] =
  map (fun k => (k, mergeF absorb_verbs (cls rkey_eqb key_of (map prep rules) k))) ks.
Proof.
  induction rules as [|r rules IH] using rev_ind.
  - exists []. simpl. split; [constructor|]. split; [tauto|reflexivity].
  - destruct IH as (ks & HN & Hks & Heq).
    rewrite fold_left_app, Heq. clear Heq. simpl. unfold merge_same_key, keyed.
    change (normalize (fix_core r)) with (prep r).
    set (L := map prep rules) in *.
    rewrite map_app. change (map prep [r]) with [prep r]. fold L.
    set (f := fun k => mergeF absorb_verbs (cls rkey_eqb key_of L k)).
    set (g := fun k => mergeF absorb_verbs (cls rkey_eqb key_of (L ++ [prep r]) k)).
    assert (Ho : forall k', k' <> key_of (prep r) -> g k' = f k').
    { intros k' Hne. unfold g, f. rewrite cls_snoc.
      destruct (rkey_eqb k' (key_of (prep r))) eqn:E; [apply rkeq in E; congruence|reflexivity]. }
    rewrite (mget_map_keys _ _ rkeq).
    destruct (existsb (rkey_eqb (key_of (prep r))) ks) eqn:E.
    + exists ks. split; [exact HN|].
      apply existsb_exists in E as (k & Hk & E). apply rkeq in E. subst k.
      split.
      { intros k. rewrite map_app, in_app_iff, <- Hks. simpl. split; [tauto|].
        intros [H|[<-|[]]]; assumption. }
      rewrite (mset_map_keys _ _ rkeq f g); auto.
      * replace (existsb (rkey_eqb (key_of (prep r))) ks) with true; [reflexivity|].
        symmetry. apply existsb_exists. exists (key_of (prep r)). split; [exact Hk|apply rkeq; reflexivity].
      * unfold g, f. rewrite cls_snoc, (proj2 (rkeq _ _) eq_refl).
        assert (Hne : cls rkey_eqb key_of L (key_of (prep r)) <> []).
        { apply Hks in Hk. apply in_map_iff in Hk as (x & Ex & Hx). intros C.
          assert (Hc : In x (cls rkey_eqb key_of L (key_of (prep r)))).
          { apply filter_In. split; [exact Hx|]. apply rkeq. congruence. }
          rewrite C in Hc. contradiction. }
        destruct (cls rkey_eqb key_of L (key_of (prep r))) as [|r0 rs] eqn:C; [congruence|].
        rewrite <- app_comm_cons. symmetry. apply mergeF_verbs_snoc.
        assert (Hin : In r0 L).
        { apply (proj1 (filter_In (fun x => rkey_eqb (key_of (prep r)) (key_of x)) r0 L)).
          unfold cls in C. rewrite C. left; reflexivity. }
        apply in_map_iff in Hin as (y & <- & _). apply normalize_nf.
    + exists (ks ++ [key_of (prep r)]).
      assert (Hni : ~ In (key_of (prep r)) ks).
      { intros H. assert (existsb (rkey_eqb (key_of (prep r))) ks = true); [|congruence].
        apply existsb_exists. exists (key_of (prep r)). split; [exact H|apply rkeq; reflexivity]. }
      split.
      { eapply Permutation_NoDup; [apply Permutation_cons_append|]. constructor; assumption. }
      split.
      { intros k. rewrite map_app, !in_app_iff, <- Hks. simpl. tauto. }
      rewrite (mset_map_keys _ _ rkeq f g); auto.
      * rewrite E. reflexivity.
      * unfold g. rewrite cls_snoc, (proj2 (rkeq _ _) eq_refl).
        assert (C : cls rkey_eqb key_of L (key_of (prep r)) = []).
        { destruct (cls rkey_eqb key_of L (key_of (prep r))) as [|x l] eqn:C; [reflexivity|].
          exfalso. apply Hni, Hks.
          assert (Hx : In x (cls rkey_eqb key_of L (key_of (prep r)))) by (rewrite C; left; reflexivity).
          apply filter_In in Hx as [Hx Ex]. apply rkeq in Ex. rewrite Ex. apply in_map, Hx. }
        rewrite C. simpl. apply (mergeF_verbs_one (prep r)), normalize_nf.
Qed.

(** Members of the map built by [build]. *)
Lemma build_gen vs m kr :
  In kr (fold_left (fun acc v => mset rkey_eqb acc (key_of v) v) vs m) ->
  In kr m \/ (In (snd kr) vs /\ fst kr = key_of (snd kr)).
Proof.
  revert m; induction vs as [|v vs IH]; simpl; intros m H; [left; exact H|].
  apply IH in H as [H|[H1 H2]]; [|right; auto].
  clear IH. induction m as [|[k' v'] m IH]; simpl in H.
  - destruct H as [<-|[]]. right. simpl. auto.
  - destruct (rkey_eqb (key_of v) k') eqn:E.
    + destruct H as [<-|H]; [|left; right; exact H].
      apply rkeq in E. right. simpl. split; [left; reflexivity|congruence].
    + destruct H as [<-|H]; [left; left; reflexivity|].
      destruct (IH H) as [H'|H']; [left; right; exact H'|right; exact H'].
Qed.

Lemma build_in vs kr : In kr (build vs) -> In (snd kr) vs /\ fst kr = key_of (snd kr).
Proof. intros H. apply build_gen in H as [[]|H]. exact H. Qed.

Lemma build_nodup_keys vs : NoDup (mkeys (build vs)).
Proof.
  unfold build. assert (H : NoDup (@mkeys rkey rule [])) by constructor. revert H.
  generalize (@nil (rkey * rule)) as m. induction vs as [|v vs IH]; simpl; intros m H; [exact H|].
  apply IH. apply mset_nodup; [exact rkeq|exact H].
Qed.

Lemma build_distinct vs : NoDup (map key_of vs) -> build vs = map (fun v => (key_of v, v)) vs.
Proof.
  unfold build. intros HN.
  assert (G : forall m, (forall v, In v vs -> ~ In (key_of v) (mkeys m)) ->
     fold_left (fun acc v => mset rkey_eqb acc (key_of v) v) vs m = m ++ map (fun v => (key_of v, v)) vs).
  { induction vs as [|v vs IH]; simpl; intros m Hm; [rewrite app_nil_r; reflexivity|].
    inversion HN as [|? ? Hni HN']; subst.
    rewrite mset_fresh by (try exact rkeq; apply Hm; left; reflexivity).
    rewrite IH; auto.
    - rewrite <- app_assoc. reflexivity.
    - intros w Hw. unfold mkeys. rewrite map_app, in_app_iff. simpl. intros [H|[H|[]]].
      + exact (Hm w (or_intror Hw) H).
      + apply Hni. rewrite H. apply in_map, Hw. }
  rewrite G; auto.
Qed.

(** ** Soundness: no escalation *)

(** Everything true of the members of a class and their merged rule. *)
Lemma mergeF_cls_nonempty {K : Type} eqb (Hk : forall a b : K, eqb a b = true <-> a = b) keyf L k :
  In k (map keyf L) -> exists r0 rs, cls eqb keyf L k = r0 :: rs.
Proof.
  intros H. apply in_map_iff in H as (x & Ex & Hx).
  assert (Hc : In x (cls eqb keyf L k)) by (apply filter_In; split; [exact Hx|apply Hk; congruence]).
  destruct (cls eqb keyf L k) as [|r0 rs]; [contradiction|]. eauto.
Qed.

Lemma cls_in {K : Type} eqb (Hk : forall a b : K, eqb a b = true <-> a = b) (keyf : rule -> K) L k x :
  In x (cls eqb keyf L k) <-> In x L /\ keyf x = k.
Proof. unfold cls. rewrite filter_In, Hk. intuition congruence. Qed.

Lemma flat_map_in_iff (A B : Type) (f : A -> list B) l y : In y (flat_map f l) <-> exists x, In x l /\ In y (f x).
Proof. apply in_flat_map. Qed.

Definition hg (r : rule) : Prop := r_resources r <> [] -> r_groups r <> [].

Lemma geq_transfer r0 a x g :
  geq (r_groups r0) (r_groups a) -> r_groups a <> [] -> In x (r_groups r0) -> star_matches x g ->
  exists y, In y (r_groups a) /\ star_matches y g.
Proof.
  intros [E|[[E1 E2]|[E1 E2]]] Hne Hx Hs.
  - exists x. rewrite <- E. auto.
  - rewrite E1 in Hx. contradiction.
  - contradiction.
Qed.

(** pass 1 *)
Lemma sound1 r0 rs q :
  (forall a, In a (r0 :: rs) -> hg a /\ geq (r_groups r0) (r_groups a) /\ r_resources r0 = r_resources a /\
      r_names r0 = r_names a /\ r_urls r0 = r_urls a) ->
  ra (mergeF absorb_verbs (r0 :: rs)) q -> exists a, In a (r0 :: rs) /\ ra a q.
Proof.
  intros Hag. unfold mergeF. rewrite ra_normalize. unfold ra, absorb_verbs; simpl.
  destruct q as [g r sub n v|p v]; simpl.
  - intros ((x1 & A1 & B1) & (x2 & A2 & B2) & (x3 & A3 & B3) & A4).
    assert (Ha : exists a, In a (r0 :: rs) /\ In x1 (r_verbs a)).
    { apply in_app_iff in A1 as [A1|A1]; [exists r0; simpl; auto|].
      apply in_flat_map in A1 as (a & H1 & H2). exists a; simpl; auto. }
    destruct Ha as (a & Ha & Hv). exists a. split; [exact Ha|].
    destruct (Hag a Ha) as (H1 & H2 & H3 & H4 & H5).
    assert (Hne : r_groups a <> []).
    { apply H1. rewrite <- H3. intros C. rewrite C in A3. contradiction. }
    repeat split.
    + exists x1; auto.
    + eapply geq_transfer; eauto.
    + exists x3. rewrite <- H3. auto.
    + rewrite <- H4. exact A4.
  - intros ((x1 & A1 & B1) & (x2 & A2 & B2)).
    assert (Ha : exists a, In a (r0 :: rs) /\ In x1 (r_verbs a)).
    { apply in_app_iff in A1 as [A1|A1]; [exists r0; simpl; auto|].
      apply in_flat_map in A1 as (a & H1 & H2). exists a; simpl; auto. }
    destruct Ha as (a & Ha & Hv). exists a. split; [exact Ha|].
    destruct (Hag a Ha) as (H1 & H2 & H3 & H4 & H5). split.
    + exists x1; auto.
    + exists x2. rewrite <- H5. auto.
Qed.

(** pass 2 *)
Lemma sound2 r0 rs q :
  (forall a, In a (r0 :: rs) -> hg a /\ geq (r_groups r0) (r_groups a) /\
      r_names r0 = r_names a /\ r_urls r0 = r_urls a /\ r_verbs r0 = r_verbs a) ->
  ra (mergeF absorb_resources (r0 :: rs)) q -> exists a, In a (r0 :: rs) /\ ra a q.
Proof.
  intros Hag. unfold mergeF. rewrite ra_normalize. unfold ra, absorb_resources; simpl.
  destruct q as [g r sub n v|p v]; simpl.
  - intros ((x1 & A1 & B1) & (x2 & A2 & B2) & (x3 & A3 & B3) & A4).
    assert (Ha : exists a, In a (r0 :: rs) /\ In x3 (r_resources a)).
    { apply in_app_iff in A3 as [A3|A3]; [exists r0; simpl; auto|].
      apply in_flat_map in A3 as (a & H1 & H2). exists a; simpl; auto. }
    destruct Ha as (a & Ha & Hr). exists a. split; [exact Ha|].
    destruct (Hag a Ha) as (H1 & H2 & H3 & H4 & H5).
    assert (Hne : r_groups a <> []) by (apply H1; intros C; rewrite C in Hr; contradiction).
    repeat split.
    + exists x1. rewrite <- H5. auto.
    + eapply geq_transfer; eauto.
    + exists x3; auto.
    + rewrite <- H3. exact A4.
  - intros H. exists r0. split; [left; reflexivity|exact H].
Qed.

(** pass 3 *)
Lemma sound3 r0 rs q :
  (forall a, In a (r0 :: rs) -> r_resources r0 = r_resources a /\
      r_names r0 = r_names a /\ r_urls r0 = r_urls a /\ r_verbs r0 = r_verbs a) ->
  ra (mergeF absorb_groups (r0 :: rs)) q -> exists a, In a (r0 :: rs) /\ ra a q.
Proof.
  intros Hag. unfold mergeF. rewrite ra_normalize. unfold ra, absorb_groups; simpl.
  destruct q as [g r sub n v|p v]; simpl.
  - intros ((x1 & A1 & B1) & (x2 & A2 & B2) & (x3 & A3 & B3) & A4).
    assert (Ha : exists a, In a (r0 :: rs) /\ In x2 (r_groups a)).
    { apply in_app_iff in A2 as [A2|A2]; [exists r0; simpl; auto|].
      apply in_flat_map in A2 as (a & H1 & H2). exists a; simpl; auto. }
    destruct Ha as (a & Ha & Hr). exists a. split; [exact Ha|].
    destruct (Hag a Ha) as (H1 & H2 & H3 & H4).
    repeat split.
    + exists x1. rewrite <- H4. auto.
    + exists x2; auto.
    + exists x3. rewrite <- H1. auto.
    + rewrite <- H2. exact A4.
  - intros H. exists r0. split; [left; reflexivity|exact H].
Qed.

(** pass 4 *)
Lemma sound4 r0 rs q :
  (forall a, In a (r0 :: rs) -> r_verbs r0 = r_verbs a) ->
  ra (mergeF absorb_urls (r0 :: rs)) q -> exists a, In a (r0 :: rs) /\ ra a q.
Proof.
  intros Hag. unfold mergeF. rewrite ra_normalize. unfold ra, absorb_urls; simpl.
  destruct q as [g r sub n v|p v]; simpl.
  - intros H. exists r0. split; [left; reflexivity|exact H].
  - intros ((x1 & A1 & B1) & (x2 & A2 & B2)).
    assert (Ha : exists a, In a (r0 :: rs) /\ In x2 (r_urls a)).
    { apply in_app_iff in A2 as [A2|A2]; [exists r0; simpl; auto|].
      apply in_flat_map in A2 as (a & H1 & H2). exists a; simpl; auto. }
    destruct Ha as (a & Ha & Hr). exists a. split; [exact Ha|]. split.
    + exists x1. rewrite <- (Hag a Ha). auto.
    + exists x2; auto.
Qed.

(** wf of merged rules *)
Lemma Forall_flat_map_in (P : string -> Prop) (f : rule -> list string) rs :
  (forall a, In a rs -> Forall P (f a)) -> Forall P (flat_map f rs).
Proof.
  intros H. apply Forall_forall. intros x Hx. apply in_flat_map in Hx as (a & Ha & Hx).
  specialize (H a Ha). rewrite Forall_forall in H. auto.
Qed.

Lemma notin_flat_map (f : rule -> list string) rs :
  (forall a, In a rs -> ~ In "" (f a)) -> ~ In "" (flat_map f rs).
Proof. intros H Hx. apply in_flat_map in Hx as (a & Ha & Hx). exact (H a Ha Hx). Qed.

Ltac wf_absorb :=
  intros H; unfold mergeF; apply wf_normalize;
  unfold absorb_verbs, absorb_resources, absorb_groups, absorb_urls;
  assert (H0 := H _ (or_introl eq_refl));
  unfold wf, clean_rule, no_empty in *; simpl in *;
  destruct H0 as ((?&?&?&?&?)&(?&?&?&?));
  repeat split; auto;
  try (apply Forall_app; split; [assumption|apply Forall_flat_map_in; intros a Ha;
       destruct (H a (or_intror Ha)) as ((?&?&?&?&?)&?); assumption]);
  try (rewrite in_app_iff; intros [?|?]; [contradiction|];
       match goal with [ Hf : In "" (flat_map ?f ?rs) |- _ ] =>
         apply (notin_flat_map f rs) in Hf; [contradiction|];
         intros a Ha; destruct (H a (or_intror Ha)) as (?&(?&?&?&?)); assumption end).

Lemma wf_absorb_verbs r0 rs : (forall a, In a (r0 :: rs) -> wf a) -> wf (mergeF absorb_verbs (r0 :: rs)).
Proof. wf_absorb. Qed.
Lemma wf_absorb_resources r0 rs : (forall a, In a (r0 :: rs) -> wf a) -> wf (mergeF absorb_resources (r0 :: rs)).
Proof. wf_absorb. Qed.
Lemma wf_absorb_groups r0 rs : (forall a, In a (r0 :: rs) -> wf a) -> wf (mergeF absorb_groups (r0 :: rs)).
Proof. wf_absorb. Qed.
Lemma wf_absorb_urls r0 rs : (forall a, In a (r0 :: rs) -> wf a) -> wf (mergeF absorb_urls (r0 :: rs)).
Proof. wf_absorb. Qed.

(** Generic soundness of a stage. *)
Lemma stage_sound keyf absorb omap ogrp (P Q : rule -> Prop) m :
  is_order omap -> is_order ogrp ->
  (forall r, In r (vals m) -> P (normalize r)) ->
  (forall r0 rs, (forall a, In a (r0 :: rs) -> P a) -> (forall a, In a (r0 :: rs) -> keyf a = keyf r0) ->
      Q (mergeF absorb (r0 :: rs)) /\
      forall q, ra (mergeF absorb (r0 :: rs)) q -> exists a, In a (r0 :: rs) /\ ra a q) ->
  forall r, In r (vals (stage keyf absorb omap ogrp m)) ->
    Q r /\ nf r /\ forall q, ra r q -> exists a, In a (vals m) /\ ra a q.
Proof.
  intros Ho Hg HP Hstep r Hr.
  destruct (stage_shape keyf absorb omap ogrp m Ho Hg) as (L & ks & HL & HN & Hks & Heq).
  rewrite Heq in Hr. unfold vals in Hr. apply in_map_iff in Hr as (kr & <- & Hr).
  apply build_in in Hr as [Hr _]. apply in_map_iff in Hr as (k & Ek & Hk).
  apply Hks in Hk. destruct (mergeF_cls_nonempty String.eqb str_eqb_spec' keyf L k Hk) as (r0 & rs & C).
  assert (Hin : forall a, In a (r0 :: rs) -> In a L /\ keyf a = k).
  { intros a Ha. rewrite <- C in Ha. apply cls_in in Ha; [exact Ha|exact str_eqb_spec']. }
  assert (HLm : forall a, In a L -> exists b, In b (vals m) /\ a = normalize b).
  { intros a Ha. apply (Permutation_in _ HL) in Ha. apply in_map_iff in Ha as (b & Eb & Hb). eauto. }
  rewrite C in Ek. destruct (Hstep r0 rs) as [HQ Hra].
  - intros a Ha. destruct (HLm a (proj1 (Hin a Ha))) as (b & Hb & ->). apply HP, Hb.
  - intros a Ha. rewrite (proj2 (Hin a Ha)). symmetry. apply Hin. left; reflexivity.
  - rewrite <- Ek. split; [exact HQ|]. split; [apply normalize_nf|].
    intros q Hq. destruct (Hra q Hq) as (a & Ha & Haq).
    destruct (HLm a (proj1 (Hin a Ha))) as (b & Hb & ->). exists b. split; [exact Hb|]. apply ra_normalize, Haq.
Qed.

Lemma star_verbs_ra r q : ra (star_verbs r) q <-> ra r q.
Proof.
  unfold star_verbs. destruct (mem_str "*" (r_verbs r)) eqn:E; [|reflexivity].
  apply mem_str_spec in E. unfold ra; simpl.
  destruct q as [g rr sub n v|p v]; simpl; split; intros ((x & A & B) & H); (split; [|exact H]).
  - exists "*". split; [exact E|left; reflexivity].
  - exists "*". split; [left; reflexivity|left; reflexivity].
  - exists "*". split; [exact E|left; reflexivity].
  - exists "*". split; [left; reflexivity|left; reflexivity].
Qed.

(** Members of the output of [normalize_rules] come from the last map. *)
Definition final_map (o : orders) (rules : list rule) : rmap :=
  stage key_no_urls absorb_urls (o_url_map o) (o_url_groups o)
    (stage key_no_groups absorb_groups (o_grp_map o) (o_grp_groups o)
      (stage key_no_resources absorb_resources (o_res_map o) (o_res_groups o)
        (fold_left merge_same_key rules []))).

Lemma normalize_rules_in o rules p :
  In p (normalize_rules o rules) -> exists r, In r (vals (final_map o rules)) /\ p = to_rule (star_verbs r).
Proof.
  unfold normalize_rules. fold (final_map o rules). intros H.
  apply in_flat_map in H as (k & _ & H). destruct (mget rkey_eqb (final_map o rules) k) as [r|] eqn:E; [|contradiction].
  destruct H as [<-|[]]. exists r. split; [|reflexivity].
  apply mget_in in E; [|exact rkeq]. apply in_map_iff. exists (k, r). auto.
Qed.

Lemma normalize_rules_in_conv o rules r :
  is_order (o_keys o) -> In r (vals (final_map o rules)) -> In (to_rule (star_verbs r)) (normalize_rules o rules).
Proof.
  intros Ho Hr. unfold normalize_rules. fold (final_map o rules).
  unfold vals in Hr. apply in_map_iff in Hr as ([k r'] & E & Hr). simpl in E. subst r'.
  apply in_flat_map. exists k. split.
  - apply sort_by_in. apply (Permutation_in _ (Permutation_sym (Ho _))). unfold mkeys. apply in_map_iff. exists (k, r). auto.
  - rewrite (mget_nodup _ _ _ rkeq _ k r); [left; reflexivity| |exact Hr].
    unfold final_map, stage, stage_merge. clear.
    match goal with |- NoDup (mkeys (fold_left _ ?l [])) => generalize l end. intros l.
    assert (H : NoDup (@mkeys rkey rule [])) by constructor. revert H.
    generalize (@nil (rkey * rule)). induction l as [|g l IH]; simpl; intros m H; [exact H|].
    apply IH. destruct (snd g); [exact H|]. unfold keyed. apply mset_nodup; [exact rkeq|exact H].
Qed.

(** One namespace. *)
Lemma normalize_rules_sound o rules :
  valid_orders o -> Forall wf rules -> Forall hg rules ->
  forall p q, In p (normalize_rules o rules) -> policy_allows p q ->
    exists r, In r rules /\ ra (fix_core r) q.
Proof.
  intros (O1 & O2 & O3 & O4 & O5 & O6 & O7) Hwf Hhg p q Hp Hq.
  apply normalize_rules_in in Hp as (r4 & Hr4 & ->).
  change (policy_allows (to_rule (star_verbs r4)) q) with (ra (star_verbs r4) q) in Hq.
  rewrite star_verbs_ra in Hq.
  set (m1 := fold_left merge_same_key rules []) in *.
  (* pass 1 *)
  assert (H1 : forall r, In r (vals m1) -> wf r /\ hg r /\ forall q, ra r q -> exists a, In a rules /\ ra (fix_core a) q).
  { intros r Hr. unfold m1 in Hr. destruct (first_pass rules) as (ks & HN & Hks & Heq). rewrite Heq in Hr.
    unfold vals in Hr. rewrite map_map in Hr. simpl in Hr. apply in_map_iff in Hr as (k & Ek & Hk).
    apply Hks in Hk. destruct (mergeF_cls_nonempty rkey_eqb rkeq key_of (map prep rules) k Hk) as (r0 & rs & C).
    assert (Hin : forall a, In a (r0 :: rs) -> In a (map prep rules) /\ key_of a = k).
    { intros a Ha. rewrite <- C in Ha. apply cls_in in Ha; [exact Ha|exact rkeq]. }
    assert (Hpw : forall a, In a (map prep rules) -> wf a /\ hg a /\ exists b, In b rules /\ a = prep b).
    { intros a Ha. apply in_map_iff in Ha as (b & <- & Hb).
      rewrite Forall_forall in Hwf, Hhg. split; [apply wf_normalize, wf_fix_core, Hwf, Hb|]. split; [|eauto].
      specialize (Hhg b Hb). unfold hg in *. unfold prep, normalize; simpl.
      rewrite !rds_nil_iff. intros Hne HC. apply map_eq_nil in HC. exact (Hhg Hne HC). }
    rewrite C in Ek. subst r.
    assert (Hag : forall a, In a (r0 :: rs) -> hg a /\ geq (r_groups r0) (r_groups a) /\ r_resources r0 = r_resources a /\
      r_names r0 = r_names a /\ r_urls r0 = r_urls a).
    { intros a Ha. destruct (Hin a Ha) as [Ha1 Ha2]. destruct (Hin r0 (or_introl eq_refl)) as [Hb1 Hb2].
      split; [apply Hpw, Ha1|]. apply key_of_inj; [apply Hpw, Hb1|apply Hpw, Ha1|congruence]. }
    split; [|split].
    - apply wf_absorb_verbs. intros a Ha. apply Hpw, Hin, Ha.
    - destruct (Hin r0 (or_introl eq_refl)) as [Hb1 _]. destruct (Hpw r0 Hb1) as (_ & Hh & _).
      unfold hg in *. unfold mergeF, absorb_verbs, normalize; simpl. rewrite !rds_nil_iff. exact Hh.
    - intros q' Hq'. apply sound1 in Hq' as (a & Ha & Haq); [|exact Hag].
      destruct (Hpw a (proj1 (Hin a Ha))) as (_ & _ & b & Hb & ->). exists b. split; [exact Hb|].
      exact (proj1 (ra_normalize _ _) Haq). }
  (* pass 2 *)
  set (m2 := stage key_no_resources absorb_resources (o_res_map o) (o_res_groups o) m1) in *.
  assert (H2 : forall r, In r (vals m2) -> wf r /\ nf r /\ forall q, ra r q -> exists a, In a (vals m1) /\ ra a q).
  { apply (stage_sound key_no_resources absorb_resources (o_res_map o) (o_res_groups o) (fun r => wf r /\ hg r) wf m1 O1 O2).
    - intros r Hr. destruct (H1 r Hr) as (A & B & _). split; [apply wf_normalize, A|].
      unfold hg in *. simpl. rewrite !rds_nil_iff. exact B.
    - intros r0 rs HP HK. split; [apply wf_absorb_resources; intros a Ha; apply HP, Ha|].
      intros q' Hq'. apply sound2 in Hq'; [exact Hq'|]. intros a Ha. split; [apply HP, Ha|].
      apply key_no_resources_inj; [apply HP; left; reflexivity|apply HP, Ha|symmetry; apply HK, Ha]. }
  (* pass 3 *)
  set (m3 := stage key_no_groups absorb_groups (o_grp_map o) (o_grp_groups o) m2) in *.
  assert (H3 : forall r, In r (vals m3) -> wf r /\ nf r /\ forall q, ra r q -> exists a, In a (vals m2) /\ ra a q).
  { apply (stage_sound key_no_groups absorb_groups (o_grp_map o) (o_grp_groups o) wf wf m2 O3 O4).
    - intros r Hr. apply wf_normalize, H2, Hr.
    - intros r0 rs HP HK. split; [apply wf_absorb_groups; intros a Ha; apply HP, Ha|].
      intros q' Hq'. apply sound3 in Hq'; [exact Hq'|]. intros a Ha.
      apply key_no_groups_inj; [apply HP; left; reflexivity|apply HP, Ha|symmetry; apply HK, Ha]. }
  (* pass 4 *)
  assert (H4 : forall r, In r (vals (final_map o rules)) -> wf r /\ nf r /\ forall q, ra r q -> exists a, In a (vals m3) /\ ra a q).
  { apply (stage_sound key_no_urls absorb_urls (o_url_map o) (o_url_groups o) wf wf m3 O5 O6).
    - intros r Hr. apply wf_normalize, H3, Hr.
    - intros r0 rs HP HK. split; [apply wf_absorb_urls; intros a Ha; apply HP, Ha|].
      intros q' Hq'. apply sound4 in Hq'; [exact Hq'|]. intros a Ha.
      apply key_no_urls_inj; [apply HP; left; reflexivity|apply HP, Ha|symmetry; apply HK, Ha]. }
  destruct (H4 r4 Hr4) as (_ & _ & F4). destruct (F4 q Hq) as (r3 & Hr3 & Hq3).
  destruct (H3 r3 Hr3) as (_ & _ & F3). destruct (F3 q Hq3) as (r2 & Hr2 & Hq2).
  destruct (H2 r2 Hr2) as (_ & _ & F2). destruct (F2 q Hq2) as (r1 & Hr1 & Hq1).
  destruct (H1 r1 Hr1) as (_ & _ & F1). exact (F1 q Hq1).
Qed.
