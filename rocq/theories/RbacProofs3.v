(** * rbac: lifting to GenerateRoles. *)

From Coq Require Import List String Ascii Bool Permutation Sorting.Sorted Lia.
From Verif Require Import GoLib GoLibFacts RbacModel RbacSpec RbacProofs RbacProofs2.
Import ListNotations.
Open Scope string_scope.
Open Scope list_scope.

Definition all_rules (roots : list (list rule)) : list rule := flat_map split_resources (List.concat roots).
Definition ns_rules (roots : list (list rule)) (ns : string) : list rule :=
  filter (fun r => String.eqb ns (r_ns r)) (all_rules roots).

Lemma ns_rules_in roots ns r :
  In r (ns_rules roots ns) <-> exists m, In m (List.concat roots) /\ r_ns m = ns /\ In r (split_resources m).
Proof.
  unfold ns_rules, all_rules. rewrite filter_In, in_flat_map, String.eqb_eq.
  assert (Hns : forall m x, In x (split_resources m) -> r_ns x = r_ns m).
  { intros m x. unfold split_resources. destruct (r_resources m) as [|y ys].
    - intros [<-|[]]. reflexivity.
    - intros H. apply in_map_iff in H as (z & <- & _). reflexivity. }
  split.
  - intros ((m & Hm & Hr) & E). exists m. rewrite (Hns m r Hr) in E. auto.
  - intros (m & Hm & E & Hr). split; [eauto|]. rewrite (Hns m r Hr). auto.
Qed.

Lemma rules_by_ns_get roots ns :
  match mget String.eqb (rules_by_ns roots) ns with Some l => l | None => [] end = ns_rules roots ns.
Proof.
  exact (group_by_slice string rule String.eqb str_eqb_spec' r_ns (all_rules roots) ns).
Qed.

Lemma rules_by_ns_keys roots ns : In ns (mkeys (rules_by_ns roots)) <-> exists r, In r (ns_rules roots ns).
Proof.
  rewrite (group_by_keys string rule String.eqb str_eqb_spec' r_ns (all_rules roots) ns : In ns (mkeys (rules_by_ns roots)) <-> _).
  rewrite in_map_iff. unfold ns_rules. split.
  - intros (r & E & Hr). exists r. apply filter_In. split; [exact Hr|apply String.eqb_eq; auto].
  - intros (r & Hr). apply filter_In in Hr as [Hr E]. apply String.eqb_eq in E. eauto.
Qed.

Lemma rules_by_ns_nodup roots : NoDup (mkeys (rules_by_ns roots)).
Proof. exact (group_by_nodup string rule String.eqb str_eqb_spec' r_ns (all_rules roots)). Qed.

Definition mk_obj (role_name ns : string) (prs : list policy_rule) : obj :=
  if String.eqb ns "" then ClusterRole role_name prs else Role role_name ns prs.

Lemma generate_roles_alt nso o roots rn :
  generate_roles nso o roots rn =
  flat_map (fun ns => match normalize_rules (o ns) (ns_rules roots ns) with
                      | [] => [] | prs => [mk_obj rn ns prs] end) (sort_strings (nso (mkeys (rules_by_ns roots)))).
Proof.
  unfold generate_roles. apply flat_map_ext. intros ns. rewrite rules_by_ns_get.
  destruct (normalize_rules (o ns) (ns_rules roots ns)) as [|p ps]; [reflexivity|].
  unfold mk_obj. destruct (String.eqb ns ""); reflexivity.
Qed.

Lemma generate_roles_in nso o roots rn ob :
  is_order nso ->
  (In ob (generate_roles nso o roots rn) <->
   exists ns, (exists r, In r (ns_rules roots ns)) /\ normalize_rules (o ns) (ns_rules roots ns) <> [] /\
     ob = mk_obj rn ns (normalize_rules (o ns) (ns_rules roots ns))).
Proof.
  intros Ho. rewrite generate_roles_alt, in_flat_map. split.
  - intros (ns & Hns & H). exists ns. rewrite sort_strings_in in Hns.
    apply (Permutation_in _ (Ho _)) in Hns. apply rules_by_ns_keys in Hns.
    destruct (normalize_rules (o ns) (ns_rules roots ns)) as [|p ps] eqn:E; [contradiction|].
    destruct H as [<-|[]]. split; [exact Hns|]. split; [congruence|reflexivity].
  - intros (ns & Hns & Hne & ->). exists ns. split.
    + rewrite sort_strings_in. apply (Permutation_in _ (Permutation_sym (Ho _))). apply rules_by_ns_keys, Hns.
    + destruct (normalize_rules (o ns) (ns_rules roots ns)) as [|p ps]; [congruence|]. left; reflexivity.
Qed.

Lemma mk_obj_ns rn ns prs : obj_ns (mk_obj rn ns prs) = ns.
Proof. unfold mk_obj. destruct (String.eqb ns "") eqn:E; [apply String.eqb_eq in E; subst|]; reflexivity. Qed.
Lemma mk_obj_rules rn ns prs : obj_rules (mk_obj rn ns prs) = prs.
Proof. unfold mk_obj. destruct (String.eqb ns ""); reflexivity. Qed.
Lemma mk_obj_name rn ns prs : obj_name (mk_obj rn ns prs) = rn.
Proof. unfold mk_obj. destruct (String.eqb ns ""); reflexivity. Qed.

Lemma objs_allow_iff nso o roots rn ns q :
  is_order nso ->
  (objs_allow (generate_roles nso o roots rn) ns q <->
   exists p, In p (normalize_rules (o ns) (ns_rules roots ns)) /\ policy_allows p q /\ exists r, In r (ns_rules roots ns)).
Proof.
  intros Ho. unfold objs_allow. split.
  - intros (ob & p & Hob & Hns & Hp & Hq). apply generate_roles_in in Hob as (ns' & He & Hne & ->); [|exact Ho].
    rewrite mk_obj_ns in Hns. subst ns'. rewrite mk_obj_rules in Hp. eauto.
  - intros (p & Hp & Hq & He). eexists _, p. split.
    + apply generate_roles_in; [exact Ho|]. exists ns. split; [exact He|]. split; [|reflexivity].
      intros C. rewrite C in Hp. contradiction.
    + rewrite mk_obj_ns, mk_obj_rules. auto.
Qed.

(** Splitting a marker by resource does not change what it asks for. *)
Lemma split_allows m q :
  (exists r, In r (split_resources m) /\ ra (fix_core r) q) <-> marker_allows m q.
Proof.
  unfold split_resources, marker_allows, ra. destruct (r_resources m) as [|y ys] eqn:E.
  - split.
    + intros (r & [<-|[]] & H). exact H.
    + intros H. eexists. split; [left; reflexivity|exact H].
  - split.
    + intros (r & Hr & H). apply in_map_iff in Hr as (x & <- & Hx). simpl in H.
      destruct q as [g rr sub n v|p v]; simpl in *; [|exact H].
      destruct H as (A & B & (z & C1 & C2) & D). split; [exact A|]. split; [exact B|]. split; [|exact D].
      destruct C1 as [<-|[]]. exists x. auto.
    + intros H. destruct q as [g rr sub n v|p v].
      * simpl in H. destruct H as (A & B & (z & C1 & C2) & D).
        eexists. split; [apply in_map_iff; exists z; split; [reflexivity|exact C1]|].
        simpl. split; [exact A|]. split; [exact B|]. split; [|exact D]. exists z. auto.
      * eexists. split; [left; reflexivity|]. exact H.
Qed.

Lemma Forall_singleton (P : string -> Prop) l x : Forall P l -> In x l -> Forall P [x].
Proof. intros H Hx. constructor; [|constructor]. rewrite Forall_forall in H. auto. Qed.

Lemma split_wf m r : wf m -> In r (split_resources m) -> wf r.
Proof.
  intros ((H1 & H2 & H3 & H4 & H5) & (E1 & E2 & E3 & E4)). unfold split_resources.
  destruct (r_resources m) as [|y ys] eqn:E.
  - intros [<-|[]]. unfold wf, clean_rule, no_empty; simpl. repeat split; auto.
  - intros H. apply in_map_iff in H as (x & <- & Hx). unfold wf, clean_rule, no_empty; simpl.
    assert (Hx1 : Forall clean [x]) by (eapply Forall_singleton; [rewrite <- E in H2; exact H2|rewrite E; exact Hx]).
    assert (Hx2 : ~ (x = "" \/ False)) by (intros [->|[]]; apply E1, Hx).
    repeat split; auto.
Qed.

Lemma split_hg m r : has_group m -> In r (split_resources m) -> hg r.
Proof.
  unfold has_group, hg, split_resources. destruct (r_resources m) as [|y ys] eqn:E.
  - intros _ [<-|[]]. simpl. congruence.
  - intros H Hr. apply in_map_iff in Hr as (x & <- & Hx). simpl. intros _. apply H. congruence.
Qed.

Lemma split_entering m r : wf m -> k8s_valid m -> In r (split_resources m) -> entering (r_ns m) r.
Proof.
  intros W K Hr. split; [eapply split_wf; eauto|].
  unfold split_resources in Hr. destruct (r_resources m) as [|y ys] eqn:E.
  - destruct Hr as [<-|[]]. unfold k8s_valid in *; simpl. rewrite E in K. auto.
  - apply in_map_iff in Hr as (x & <- & Hx). unfold k8s_valid in *; simpl. rewrite E in K.
    split; [|split; [reflexivity|right; eauto]].
    destruct K as [(A & B & C & D)|(A & B & C)]; [discriminate|right; repeat split; auto; discriminate].
Qed.

Lemma split_compatible a b r s :
  compatible a b -> In r (split_resources a) -> In s (split_resources b) -> compatible r s.
Proof.
  assert (F : forall m x, In x (split_resources m) ->
     r_groups x = r_groups m /\ r_names x = r_names m /\ r_urls x = r_urls m /\ r_ns x = r_ns m /\
     incl (r_resources x) (r_resources m)).
  { intros m x. unfold split_resources. destruct (r_resources m) as [|y ys] eqn:E.
    - intros [<-|[]]. simpl. repeat split; auto. intros z [].
    - intros H. apply in_map_iff in H as (z & <- & Hz). simpl. repeat split; auto. intros w [<-|[]]. exact Hz. }
  intros HC Hr Hs. destruct (F a r Hr) as (A1 & A2 & A3 & A4 & A5). destruct (F b s Hs) as (B1 & B2 & B3 & B4 & B5).
  unfold compatible in *. rewrite A1, A2, A3, A4, B1, B2, B3, B4. intros E. destruct (HC E) as [H1 H2].
  split; [|exact H2]. intros Hn (x & X1 & X2) Hg. apply H1; auto. exists x. auto.
Qed.

(** ** Soundness *)
Lemma generate_roles_sound nso o roots rn :
  is_order nso -> (forall ns, valid_orders (o ns)) ->
  (forall m, In m (List.concat roots) -> sane m) ->
  forall ns q, objs_allow (generate_roles nso o roots rn) ns q -> markers_allow roots ns q.
Proof.
  intros Hn Ho Hs ns q H. apply objs_allow_iff in H as (p & Hp & Hq & _); [|exact Hn].
  destruct (normalize_rules_sound (o ns) (ns_rules roots ns)) with (p := p) (q := q) as (r & Hr & Hrq); auto.
  - apply Forall_forall. intros r Hr. apply ns_rules_in in Hr as (m & Hm & _ & Hr).
    destruct (Hs m Hm) as (C & E & G). eapply split_wf; [split; eassumption|exact Hr].
  - apply Forall_forall. intros r Hr. apply ns_rules_in in Hr as (m & Hm & _ & Hr).
    destruct (Hs m Hm) as (C & E & G). eapply split_hg; eauto.
  - apply ns_rules_in in Hr as (m & Hm & Ens & Hr). exists m. split; [exact Hm|]. split; [exact Ens|].
    apply split_allows. eauto.
Qed.

(** ** Exactness *)

Lemma entering_ns roots ns :
  (forall m, In m (List.concat roots) -> marker_ok m) ->
  forall r, In r (ns_rules roots ns) -> entering ns r.
Proof.
  intros Hs r Hr. apply ns_rules_in in Hr as (m & Hm & <- & Hr). destruct (Hs m Hm) as (A & B & C).
  apply split_entering; auto. split; auto.
Qed.

Lemma compatible_ns roots ns :
  (forall a b, In a (List.concat roots) -> In b (List.concat roots) -> compatible a b) ->
  forall r s, In r (ns_rules roots ns) -> In s (ns_rules roots ns) -> compatible r s.
Proof.
  intros HC r s Hr Hs. apply ns_rules_in in Hr as (a & Ha & _ & Hr). apply ns_rules_in in Hs as (b & Hb & _ & Hs).
  exact (split_compatible a b r s (HC a b Ha Hb) Hr Hs).
Qed.

Lemma generate_roles_exact nso o roots rn :
  is_order nso -> (forall ns, valid_orders (o ns)) ->
  (forall m, In m (List.concat roots) -> marker_ok m) ->
  (forall a b, In a (List.concat roots) -> In b (List.concat roots) -> compatible a b) ->
  forall ns q, objs_allow (generate_roles nso o roots rn) ns q <-> markers_allow roots ns q.
Proof.
  intros Hn Ho Hs Hc ns q. rewrite objs_allow_iff by exact Hn.
  pose proof (normalize_rules_exact (o ns) ns (ns_rules roots ns) (Ho ns) (entering_ns roots ns Hs) (compatible_ns roots ns Hc) q) as HE.
  split.
  - intros (p & Hp & Hq & _). destruct (proj1 HE) as (r & Hr & Hrq); [eauto|].
    apply ns_rules_in in Hr as (m & Hm & E & Hr). exists m. split; [exact Hm|]. split; [exact E|].
    apply split_allows. eauto.
  - intros (m & Hm & E & Hq). apply split_allows in Hq as (r & Hr & Hq).
    assert (Hin : In r (ns_rules roots ns)) by (apply ns_rules_in; eauto).
    destruct (proj2 HE) as (p & Hp & Hpq); [eauto|]. exists p. eauto.
Qed.

(** ** Determinism *)
Lemma flat_map_perm (A B : Type) (f : A -> list B) l l' : Permutation l l' -> Permutation (flat_map f l) (flat_map f l').
Proof. intros H. apply Permutation_flat_map, H. Qed.

Lemma filter_perm (A : Type) (f : A -> bool) l l' : Permutation l l' -> Permutation (filter f l) (filter f l').
Proof.
  induction 1 as [|x l l' HP IH|x y l|l l' l'' H1 IH1 H2 IH2]; simpl.
  - constructor.
  - destruct (f x); [constructor; exact IH|exact IH].
  - destruct (f x), (f y); try constructor; reflexivity.
  - eapply Permutation_trans; eassumption.
Qed.

Lemma generate_roles_deterministic nso o nso' o' roots roots' rn :
  is_order nso -> is_order nso' -> (forall ns, valid_orders (o ns)) -> (forall ns, valid_orders (o' ns)) ->
  (forall m, In m (List.concat roots) -> marker_ok m) ->
  (forall a b, In a (List.concat roots) -> In b (List.concat roots) -> compatible a b) ->
  Permutation (List.concat roots) (List.concat roots') ->
  generate_roles nso o roots rn = generate_roles nso' o' roots' rn.
Proof.
  intros Hn Hn' Ho Ho' Hs Hc HP. rewrite !generate_roles_alt.
  assert (HPr : Permutation (all_rules roots) (all_rules roots')) by (apply flat_map_perm, HP).
  assert (Hks : sort_strings (nso (mkeys (rules_by_ns roots))) = sort_strings (nso' (mkeys (rules_by_ns roots')))).
  { apply sort_strings_perm_eq. rewrite (Hn _), (Hn' _).
    apply NoDup_Permutation; try apply rules_by_ns_nodup. intros ns. rewrite !rules_by_ns_keys.
    split; intros (r & Hr); exists r; unfold ns_rules in *; (eapply Permutation_in; [|exact Hr]);
      apply filter_perm; [|symmetry]; exact HPr. }
  rewrite Hks. apply flat_map_ext. intros ns.
  rewrite (normalize_rules_deterministic (o ns) (o' ns) ns (ns_rules roots ns) (ns_rules roots' ns)); auto.
  - apply entering_ns, Hs.
  - apply compatible_ns, Hc.
  - apply filter_perm, HPr.
Qed.

(** ** Shape *)

Lemma build_nonempty vs : vs <> [] -> build vs <> [].
Proof.
  intros Hne. unfold build. destruct vs as [|v vs]; [congruence|]. simpl.
  assert (G : forall vs m, m <> [] -> fold_left (fun acc v => mset rkey_eqb acc (key_of v) v) vs m <> []).
  { clear. induction vs as [|v vs IH]; simpl; intros m Hm; [exact Hm|]. apply IH.
    destruct m as [|[k' v'] m]; [congruence|]. simpl. destruct (rkey_eqb (key_of v) k'); discriminate. }
  apply G. discriminate.
Qed.

Lemma stage_nonempty keyf absorb omap ogrp m :
  is_order omap -> is_order ogrp -> m <> [] -> stage keyf absorb omap ogrp m <> [].
Proof.
  intros Ho Hg Hm. destruct (stage_shape keyf absorb omap ogrp m Ho Hg) as (L & ks & HL & HN & Hks & Heq).
  rewrite Heq. apply build_nonempty. intros C. apply map_eq_nil in C. subst ks.
  destruct L as [|a L].
  - apply Permutation_nil in HL. apply map_eq_nil in HL. unfold vals in HL. apply map_eq_nil in HL. contradiction.
  - apply (Hks (keyf a)). left; reflexivity.
Qed.

Lemma first_pass_nonempty rules : rules <> [] -> fold_left merge_same_key rules [] <> [].
Proof.
  intros Hne. destruct (first_pass rules) as (ks & HN & Hks & Heq). rewrite Heq. intros C. apply map_eq_nil in C. subst ks.
  destruct rules as [|r rules]; [congruence|]. apply (Hks (key_of (prep r))). left; reflexivity.
Qed.

Lemma final_map_nonempty o rules : valid_orders o -> rules <> [] -> final_map o rules <> [].
Proof.
  intros (O1 & O2 & O3 & O4 & O5 & O6 & O7) Hne. unfold final_map.
  apply stage_nonempty; auto. apply stage_nonempty; auto. apply stage_nonempty; auto. apply first_pass_nonempty, Hne.
Qed.

Lemma normalize_rules_nonempty o rules : valid_orders o -> rules <> [] -> normalize_rules o rules <> [].
Proof.
  intros HO Hne C. pose proof (final_map_nonempty o rules HO Hne) as HF.
  destruct (final_map o rules) as [|[k r] m] eqn:E; [congruence|].
  assert (Hin : In (to_rule (star_verbs r)) (normalize_rules o rules)).
  { apply normalize_rules_in_conv; [apply HO|]. rewrite E. left; reflexivity. }
  rewrite C in Hin. contradiction.
Qed.

Lemma split_nonempty m : split_resources m <> [].
Proof. unfold split_resources. destruct (r_resources m); discriminate. Qed.

Lemma ns_rules_exist roots ns : (exists r, In r (ns_rules roots ns)) <-> exists m, In m (List.concat roots) /\ r_ns m = ns.
Proof.
  split.
  - intros (r & Hr). apply ns_rules_in in Hr as (m & Hm & E & _). eauto.
  - intros (m & Hm & E). destruct (split_resources m) as [|r rs] eqn:S; [exfalso; exact (split_nonempty m S)|].
    exists r. apply ns_rules_in. exists m. split; [exact Hm|]. split; [exact E|]. rewrite S. left; reflexivity.
Qed.

Lemma ns_rules_ne roots ns : (exists r, In r (ns_rules roots ns)) -> ns_rules roots ns <> [].
Proof. intros (r & Hr) C. rewrite C in Hr. contradiction. Qed.

Lemma generate_roles_namespaces nso o roots rn :
  is_order nso -> (forall ns, valid_orders (o ns)) ->
  map obj_ns (generate_roles nso o roots rn) = sort_strings (nso (mkeys (rules_by_ns roots))).
Proof.
  intros Hn Ho. rewrite generate_roles_alt.
  assert (G : forall l, (forall ns, In ns l -> exists r, In r (ns_rules roots ns)) ->
    map obj_ns (flat_map (fun ns => match normalize_rules (o ns) (ns_rules roots ns) with
                      | [] => [] | prs => [mk_obj rn ns prs] end) l) = l).
  { induction l as [|ns l IH]; intros Hl; [reflexivity|]. simpl.
    pose proof (normalize_rules_nonempty (o ns) (ns_rules roots ns) (Ho ns) (ns_rules_ne _ _ (Hl ns (or_introl eq_refl)))) as Hne.
    destruct (normalize_rules (o ns) (ns_rules roots ns)) as [|p ps]; [congruence|].
    simpl. rewrite mk_obj_ns. f_equal. apply IH. intros x Hx. apply Hl. right; exact Hx. }
  apply G. intros ns Hns. rewrite sort_strings_in in Hns. apply (Permutation_in _ (Hn _)) in Hns.
  apply rules_by_ns_keys, Hns.
Qed.

Lemma sorted_nodup_strict l : StronglySorted str_le l -> NoDup l -> StronglySorted (fun a b => str_ltb a b = true) l.
Proof.
  induction 1 as [|x l HS IH HF]; intros HN; constructor; inversion HN as [|? ? Hni HN']; subst.
  - apply IH, HN'.
  - rewrite Forall_forall in *. intros y Hy. apply str_leb_ltb; [apply HF, Hy|]. intros ->. contradiction.
Qed.

Lemma generate_roles_sorted nso o roots rn :
  is_order nso -> (forall ns, valid_orders (o ns)) ->
  StronglySorted (fun a b => str_ltb a b = true) (map obj_ns (generate_roles nso o roots rn)).
Proof.
  intros Hn Ho. rewrite generate_roles_namespaces by assumption.
  apply sorted_nodup_strict; [apply sort_strings_sorted|].
  eapply Permutation_NoDup; [symmetry; rewrite sort_strings_perm; apply Hn|apply rules_by_ns_nodup].
Qed.

Lemma generate_roles_exists nso o roots rn ns :
  is_order nso -> (forall ns, valid_orders (o ns)) ->
  ((exists ob, In ob (generate_roles nso o roots rn) /\ obj_ns ob = ns) <->
   exists m, In m (List.concat roots) /\ r_ns m = ns).
Proof.
  intros Hn Ho. rewrite <- ns_rules_exist, <- rules_by_ns_keys.
  assert (E := generate_roles_namespaces nso o roots rn Hn Ho). split.
  - intros (ob & Hob & <-). apply (in_map obj_ns) in Hob. rewrite E, sort_strings_in in Hob.
    exact (Permutation_in _ (Hn _) Hob).
  - intros H. assert (H' : In ns (map obj_ns (generate_roles nso o roots rn))).
    { rewrite E, sort_strings_in. exact (Permutation_in _ (Permutation_sym (Hn _)) H). }
    apply in_map_iff in H' as (ob & Eo & Hob). eauto.
Qed.

(** Per-object facts. *)

Lemma rds_sorted_set l : sorted_set (rds l).
Proof. apply sorted_nodup_strict; [apply rds_sorted|apply rds_nodup]. Qed.

Lemma final_map_nf o rules r : is_order (o_url_map o) -> is_order (o_url_groups o) -> In r (vals (final_map o rules)) -> nf r.
Proof.
  intros O5 O6 Hr. unfold final_map in Hr.
  match type of Hr with In _ (vals (stage _ _ _ _ ?m)) =>
    destruct (stage_shape key_no_urls absorb_urls _ _ m O5 O6) as (L & ks & HL & HN & Hks & Heq) end.
  rewrite Heq in Hr. unfold vals in Hr. apply in_map_iff in Hr as (kr & <- & Hr). apply build_in in Hr as [Hr _].
  apply in_map_iff in Hr as (k & <- & Hk). unfold mergeF. destruct (cls String.eqb key_no_urls L k); [reflexivity|apply normalize_nf].
Qed.

(** A property of every member of the groups field survives every stage. *)
Lemma stage_groups_forall (P : string -> Prop) keyf absorb omap ogrp m :
  is_order omap -> is_order ogrp ->
  (forall r0 rs, (forall a, In a (r0 :: rs) -> Forall P (r_groups a)) -> Forall P (r_groups (absorb r0 rs))) ->
  (forall r, In r (vals m) -> Forall P (r_groups r)) ->
  forall r, In r (vals (stage keyf absorb omap ogrp m)) -> Forall P (r_groups r).
Proof.
  intros Ho Hg Habs Hm r Hr. destruct (stage_shape keyf absorb omap ogrp m Ho Hg) as (L & ks & HL & HN & Hks & Heq).
  rewrite Heq in Hr. unfold vals in Hr. apply in_map_iff in Hr as (kr & <- & Hr). apply build_in in Hr as [Hr _].
  apply in_map_iff in Hr as (k & <- & Hk).
  destruct (cls String.eqb keyf L k) as [|r0 rs] eqn:C; simpl; [constructor|].
  apply rds_forall, Habs. intros a Ha. rewrite <- C in Ha. apply cls_in in Ha as [Ha _]; [|exact str_eqb_spec'].
  apply (Permutation_in _ HL) in Ha. apply in_map_iff in Ha as (b & <- & Hb). simpl. apply rds_forall, Hm, Hb.
Qed.

Lemma final_map_no_core o rules r :
  valid_orders o -> In r (vals (final_map o rules)) -> ~ In "core" (r_groups r).
Proof.
  intros (O1 & O2 & O3 & O4 & O5 & O6 & O7) Hr.
  assert (H : Forall (fun g => g <> "core") (r_groups r)).
  { revert r Hr. unfold final_map.
    apply stage_groups_forall; auto.
    { intros r0 rs H. apply (H r0 (or_introl eq_refl)). }
    apply stage_groups_forall; auto.
    { intros r0 rs H. simpl. apply Forall_app. split; [apply (H r0 (or_introl eq_refl))|].
      apply Forall_flat_map_in. intros a Ha. apply H. right; exact Ha. }
    apply stage_groups_forall; auto.
    { intros r0 rs H. apply (H r0 (or_introl eq_refl)). }
    intros r Hr. destruct (first_pass rules) as (ks & HN & Hks & Heq). rewrite Heq in Hr. unfold vals in Hr.
    rewrite map_map in Hr. apply in_map_iff in Hr as (k & <- & Hk). simpl.
    destruct (cls rkey_eqb key_of (map prep rules) k) as [|r0 rs] eqn:C; simpl; [constructor|].
    assert (Hin : In r0 (cls rkey_eqb key_of (map prep rules) k)) by (rewrite C; left; reflexivity).
    apply cls_in in Hin as [Hin _]; [|exact rkeq]. apply in_map_iff in Hin as (b & <- & Hb).
    apply rds_forall. unfold prep, normalize; simpl. apply rds_forall. apply Forall_forall. intros g Hg.
    apply in_map_iff in Hg as (h & <- & _). destruct (String.eqb h "core") eqn:E; [discriminate|].
    apply String.eqb_neq in E. exact E. }
  rewrite Forall_forall in H. intros C. exact (H _ C eq_refl).
Qed.

Lemma star_verbs_sorted_set r : nf r ->
  sorted_set (r_verbs (star_verbs r)) /\ (In "*" (r_verbs (star_verbs r)) -> r_verbs (star_verbs r) = ["*"]).
Proof.
  intros Hn. apply nf_fields in Hn as (_ & _ & _ & Hv & _).
  unfold star_verbs. destruct (mem_str "*" (r_verbs r)) eqn:E; simpl.
  - split; [|reflexivity]. repeat constructor.
  - split; [rewrite <- Hv; apply rds_sorted_set|]. intros H. apply mem_str_spec in H. congruence.
Qed.

Lemma star_verbs_fields r :
  r_groups (star_verbs r) = r_groups r /\ r_resources (star_verbs r) = r_resources r /\
  r_names (star_verbs r) = r_names r /\ r_urls (star_verbs r) = r_urls r.
Proof. unfold star_verbs. destruct (mem_str "*" (r_verbs r)); auto. Qed.

Lemma normalize_rules_fields o rules p :
  valid_orders o -> In p (normalize_rules o rules) ->
  sorted_set (p_groups p) /\ sorted_set (p_resources p) /\ sorted_set (p_names p) /\ sorted_set (p_verbs p) /\
  sorted_set (p_urls p) /\ ~ In "core" (p_groups p) /\ (In "*" (p_verbs p) -> p_verbs p = ["*"]).
Proof.
  intros HO Hp. apply normalize_rules_in in Hp as (r & Hr & ->).
  assert (Hnf : nf r) by (apply (final_map_nf o rules); [apply HO|apply HO|exact Hr]).
  assert (Hc := final_map_no_core o rules r HO Hr).
  destruct (star_verbs_sorted_set r Hnf) as [V1 V2]. destruct (star_verbs_fields r) as (E1 & E2 & E3 & E4).
  apply nf_fields in Hnf as (F1 & F2 & F3 & F4 & F5).
  unfold to_rule; simpl. rewrite E1, E2, E3, E4.
  assert (G1 := rds_sorted_set (r_groups r)). assert (G2 := rds_sorted_set (r_resources r)).
  assert (G3 := rds_sorted_set (r_names r)). assert (G5 := rds_sorted_set (r_urls r)).
  rewrite F1 in G1. rewrite F2 in G2. rewrite F3 in G3. rewrite F5 in G5. tauto.
Qed.

(** The rules of an object are in key-string order. *)
Lemma normalize_rules_sorted o rules :
  valid_orders o -> StronglySorted (fun a b => str_leb (policy_string a) (policy_string b) = true) (normalize_rules o rules).
Proof.
  intros HO. destruct HO as (O1 & O2 & O3 & O4 & O5 & O6 & O7).
  unfold normalize_rules. fold (final_map o rules).
  change (fun a b : rkey => str_ltb (key_string a) (key_string b)) with kless.
  set (ks := sort_by kless (o_keys o (mkeys (final_map o rules)))).
  assert (HS : StronglySorted (fun a b => str_leb (key_string a) (key_string b) = true) ks) by apply kless_sorted.
  assert (Hstr : forall k r, mget rkey_eqb (final_map o rules) k = Some r -> policy_string (to_rule (star_verbs r)) = key_string k).
  { intros k r E. apply mget_in in E; [|exact rkeq]. pose proof (final_map_keys o rules _ O5 O6 E) as Ek. simpl in Ek. subst k.
    destruct (star_verbs_fields r) as (E1 & E2 & E3 & E4).
    unfold policy_string, to_rule; simpl. rewrite E1, E2, E3, E4. reflexivity. }
  clearbody ks. induction HS as [|k ks HS IH HF]; simpl; [constructor|].
  destruct (mget rkey_eqb (final_map o rules) k) as [r|] eqn:E; simpl; [|exact IH].
  constructor; [exact IH|]. apply Forall_forall. intros p Hp.
  apply in_flat_map in Hp as (k' & Hk' & Hp). destruct (mget rkey_eqb (final_map o rules) k') as [r'|] eqn:E'; [|contradiction].
  destruct Hp as [<-|[]]. rewrite (Hstr _ _ E), (Hstr _ _ E'). rewrite Forall_forall in HF. apply HF, Hk'.
Qed.

Lemma generate_roles_objects nso o roots rn ob :
  is_order nso -> (forall ns, valid_orders (o ns)) -> In ob (generate_roles nso o roots rn) ->
  obj_name ob = rn /\ obj_rules ob <> [] /\
  (match ob with ClusterRole _ _ => True | Role _ ns _ => ns <> "" end) /\
  StronglySorted (fun a b => str_leb (policy_string a) (policy_string b) = true) (obj_rules ob) /\
  forall p, In p (obj_rules ob) ->
    sorted_set (p_groups p) /\ sorted_set (p_resources p) /\ sorted_set (p_names p) /\ sorted_set (p_verbs p) /\
    sorted_set (p_urls p) /\ ~ In "core" (p_groups p) /\ (In "*" (p_verbs p) -> p_verbs p = ["*"]).
Proof.
  intros Hn Ho H. apply generate_roles_in in H as (ns & He & Hne & ->); [|exact Hn].
  rewrite mk_obj_name, mk_obj_rules. split; [reflexivity|]. split; [exact Hne|]. split.
  { unfold mk_obj. destruct (String.eqb ns "") eqn:E; [exact I|]. apply String.eqb_neq in E. exact E. }
  split; [apply normalize_rules_sorted, Ho|]. intros p Hp. apply (normalize_rules_fields (o ns) (ns_rules roots ns)); auto.
Qed.
