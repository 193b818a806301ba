(** * Flattening allOf and validity: whole merges. *)

From Coq Require Import List String ZArith QArith Bool Lia Permutation.
From Verif Require Import GoLib GoLibFacts SchemaModel SchemaFacts WalkModel WalkSpec WalkProofs FlattenModel ValidSpec FlattenSpec
  FlattenProofs FlattenProofs2.
Import ListNotations.
Open Scope string_scope.
Open Scope list_scope.
Open Scope nat_scope.

Definition fold_schema (l : list schema) (d : schema) : schema := fst (fold_into l (d, [])).
Definition fold_errs (l : list schema) (d : schema) : list terr := snd (fold_into l (d, [])).

Lemma fold_schema_cons e l d : fold_schema (e :: l) d = fold_schema l (into d e).
Proof. unfold fold_schema. rewrite fold_into_cons. apply fold_into_errs. Qed.
Lemma fold_errs_cons e l d : fold_errs (e :: l) d = snd (flatten_into d e) ++ fold_errs l (into d e).
Proof. unfold fold_errs. rewrite fold_into_cons, (proj2 (fold_into_errs _ _ _)). reflexivity. Qed.

Definition merged_props (d s : schema) := fst (merge_props (s_props s) (s_props d, [])).
Definition merged_addl (d s : schema) := fst (merge_addl (s_addl s) (s_addl d)).
Lemma into_eq dst src : into dst src = let d := fold_schema (s_allOf src) dst in merge_node d src (merged_props d src) (merged_addl d src).
Proof. unfold into. rewrite flatten_into_eq. reflexivity. Qed.
Lemma into_errs dst src : snd (flatten_into dst src) = [] ->
  let d := fold_schema (s_allOf src) dst in
  fold_errs (s_allOf src) dst = [] /\ type_error (k_type (s_kw d)) (k_type (s_kw src)) = [] /\
  snd (merge_props (s_props src) (s_props d, [])) = [] /\ snd (merge_addl (s_addl src) (s_addl d)) = [].
Proof.
  rewrite flatten_into_eq. cbv zeta. cbn [snd]. intros H. apply app_eq_nil in H as [H1 H]. apply app_eq_nil in H as [H2 H].
  apply app_eq_nil in H as [H3 H4]. auto.
Qed.

Lemma plain_child s c : plain s -> In c (children s) -> plain c.
Proof. apply all_nodes_child. Qed.
Lemma fold_schema_plain l d : plain d -> (forall e, In e l -> plain e) -> plain (fold_schema l d).
Proof. apply fold_into_plain. Qed.

Lemma in_props_child s k c : In (k, c) (s_props s) -> In c (children s).
Proof. intros H. apply in_children. right; left. apply in_map_iff. exists (k, c). auto. Qed.
Lemma in_allOf_child s c : In c (s_allOf s) -> In c (children s).
Proof. intros H. apply in_children. auto. Qed.
Lemma in_addl_child s b c : s_addl s = Some (b, Some c) -> In c (children s).
Proof. intros H. apply in_children. right; right; left. rewrite H. simpl. auto. Qed.

Section Validity.
  Variable O : oracles.
  Notation valid := (valid O).

  Lemma mem_merged k l m : NoDup (mkeys l) -> NoDup (mkeys m) ->
    mem_str k (map fst (fst (merge_props l (m, [])))) = mem_str k (map fst m) || mem_str k (map fst l).
  Proof.
    intros H1 H2. apply eq_true_iff_eq. rewrite orb_true_iff, !mem_str_spec.
    pose proof (merge_props_get l m [] k H1) as H.
    pose proof (mget_none _ (fst (merge_props l (m, []))) k) as G. pose proof (mget_none _ m k) as Gm. pose proof (mget_none _ l k) as Gl.
    unfold mkeys in *. destruct (in_dec string_dec k (map fst m)) as [Hm|Hm].
    - destruct (mget String.eqb m k) eqn:Em; [|exfalso; apply Gm; auto]. destruct (mget String.eqb l k); rewrite H in G;
        (split; [auto|intros _]; destruct (in_dec string_dec k (map fst (fst (merge_props l (m, []))))) as [Hx|Hx]; [exact Hx|exfalso; apply G in Hx; discriminate]).
    - apply Gm in Hm as Em. rewrite Em in H. rewrite H in G.
      destruct (in_dec string_dec k (map fst l)), (in_dec string_dec k (map fst (fst (merge_props l (m, []))))); tauto.
  Qed.

  Definition is_sub (x v : json) : Prop :=
    match v with JArr l => In x l | JObj l => exists k, mget String.eqb l k = Some x \/ In (k, x) l | _ => False end.

  (** ** Everything both schemas accept is accepted by the merge *)
  Lemma fold_le l : (forall e, In e l -> forall d v, plain d -> plain e -> valid d v = true -> valid e v = true -> valid (into d e) v = true) ->
    forall d v, plain d -> (forall e, In e l -> plain e) -> valid d v = true -> forallb (fun c => valid c v) l = true -> valid (fold_schema l d) v = true.
  Proof.
    induction l as [|e l IHl]; intros IH d v Hd Hl V F; [exact V|]. rewrite fold_schema_cons. simpl in F. apply andb_true_iff in F as [Fe F].
    apply IHl; [intros; apply IH; auto; right; assumption| | |apply IH; auto; [left; reflexivity|apply Hl; left; reflexivity]|exact F].
    - apply into_plain; [exact Hd|apply Hl; left; reflexivity].
    - intros; apply Hl; right; assumption.
  Qed.

  Lemma into_le src : forall dst v, plain dst -> plain src -> valid dst v = true -> valid src v = true -> valid (into dst src) v = true.
  Proof.
    induction src as [src IH] using schema_rec_ind. intros dst v Hdst Hs Vd Vs. rewrite into_eq. cbv zeta.
    pose proof (all_nodes_root _ _ Hs) as Ps.
    assert (Hv : node_ok O src v = true) by (rewrite <- (valid_plain O src v) by apply Ps; exact Vs).
    unfold node_ok in Hv. rewrite !andb_true_iff in Hv. destruct Hv as [[[[[[[[Sk Sa] Sl] So] Sn] St] Sp] Sd] Sx].
    assert (Hd : plain (fold_schema (s_allOf src) dst)).
    { apply fold_schema_plain; [exact Hdst|]. intros e He. eapply plain_child; [exact Hs|apply in_allOf_child, He]. }
    assert (Vd' : valid (fold_schema (s_allOf src) dst) v = true).
    { apply fold_le; auto; [|intros e He; eapply plain_child; [exact Hs|apply in_allOf_child, He]].
      intros e He. apply IH. apply in_allOf_child, He. }
    clear Vd. set (d := fold_schema (s_allOf src) dst) in *. clearbody d. pose proof (all_nodes_root _ _ Hd) as Pd.
    rewrite (valid_plain O d v) in Vd' by apply Pd.
    unfold node_ok in Vd'. rewrite !andb_true_iff in Vd'. destruct Vd' as [[[[[[[[Dk Da] Dl] Do] Dn] Dt] Dp] Dd] Dx].
    rewrite merge_node_valid by assumption.
    rewrite (kw_merge_le O), Da, Sa, Dl, Do, So, Dn, Sn, Dt, St, Dx, Sx by (try assumption; apply Pd || apply Ps). simpl. rewrite !andb_true_r.
    apply andb_true_iff. destruct Pd as ((Nd & _) & _), Ps as ((Ns & _) & _). split.
    - unfold props_ok in *. destruct v as [| | | | |obj]; try reflexivity. simpl in *. rewrite forallb_forall in *. intros [k c] Hc.
      cbn [fst snd]. destruct (mget String.eqb obj k) as [x|] eqn:Ek; [|reflexivity].
      apply merge_props_in in Hc; [|exact Ns|exact Nd]. destruct Hc as [Hc|[Hc|(a & b & Ha & Hb & ->)]].
      + specialize (Dp _ Hc). cbn [fst snd] in Dp. rewrite Ek in Dp. exact Dp.
      + specialize (Sp _ Hc). cbn [fst snd] in Sp. rewrite Ek in Sp. exact Sp.
      + specialize (Dp _ Ha). specialize (Sp _ Hb). cbn [fst snd] in *. rewrite Ek in *.
        assert (Ib : In b (children src)) by (eapply in_props_child; exact Hb).
        apply (IH b Ib a x); auto; [|exact (plain_child _ _ Hs Ib)]. apply (plain_child d); [exact Hd|]. eapply in_props_child; exact Ha.
    - unfold addl_ok in *. destruct v as [| | | | |obj]; try reflexivity. simpl in *. unfold merged_addl, merged_props.
      assert (Hm : forall k, mem_str k (map fst (fst (merge_props (s_props src) (s_props d, [])))) = mem_str k (map fst (s_props d)) || mem_str k (map fst (s_props src)))
        by (intros; apply mem_merged; assumption).
      unfold merge_addl. destruct (s_addl src) as [[bs [x|]]|] eqn:Es; destruct (s_addl d) as [[bd o]|] eqn:Ed; cbn [fst]; auto.
      + destruct (flatten_into _ x) as [x' es'] eqn:E. cbn [fst]. rewrite forallb_forall in *. intros kv Hkv. rewrite Hm.
        specialize (Dd _ Hkv). specialize (Sd _ Hkv). destruct (mem_str (fst kv) (map fst (s_props d))); [reflexivity|].
        destruct (mem_str (fst kv) (map fst (s_props src))); [reflexivity|]. simpl in *.
        replace x' with (into (match o with Some y => y | None => schema0 end) x) by (unfold into; rewrite E; reflexivity).
        apply IH; auto.
        * eapply in_addl_child; eauto.
        * destruct o; [eapply plain_child; [exact Hd|eapply in_addl_child; eauto]|apply all_schema0, plain_schema0].
        * eapply plain_child; [exact Hs|eapply in_addl_child; eauto].
        * destruct o; [exact Dd|apply valid_schema0].
      + rewrite forallb_forall in *. intros kv Hkv. rewrite Hm. specialize (Sd _ Hkv). destruct (mem_str (fst kv) (map fst (s_props d))); [reflexivity|].
        exact Sd.
      + rewrite forallb_forall in *. intros kv Hkv. rewrite Hm. specialize (Dd _ Hkv). destruct (mem_str (fst kv) (map fst (s_props d))); [reflexivity|].
        simpl in *. rewrite Dd. apply orb_true_r.
      + rewrite forallb_forall in *. intros kv Hkv. rewrite Hm. specialize (Sd _ Hkv). destruct (mem_str (fst kv) (map fst (s_props d))); [reflexivity|].
        exact Sd.
      + rewrite forallb_forall in *. intros kv Hkv. rewrite Hm. specialize (Dd _ Hkv). destruct (mem_str (fst kv) (map fst (s_props d))); [reflexivity|].
        simpl in *. rewrite Dd. apply orb_true_r.
  Qed.
End Validity.

(** ** A merge without mixed nodes has parts without mixed nodes *)
Lemma merge_props_nil l m : NoDup (mkeys l) -> fst (merge_props l (m, [])) = [] -> l = [] /\ m = [].
Proof.
  intros HN H. assert (G : forall k, mget String.eqb m k = None /\ mget String.eqb l k = None).
  { intros k. pose proof (merge_props_get l m [] k HN) as E. rewrite H in E. simpl in E.
    destruct (mget String.eqb m k), (mget String.eqb l k); try discriminate; auto. }
  split; [destruct l as [|[k c] l]|destruct m as [|[k c] m]]; auto; destruct (G k) as [G1 G2]; simpl in *; rewrite String.eqb_refl in *; discriminate.
Qed.

Lemma unmixed_schema0 : unmixed schema0.
Proof. apply all_schema0. left; reflexivity. Qed.

Definition nonall (s : schema) : list schema := map snd (s_props s) ++ orbool_list (s_addl s) ++ others s.
Lemma in_nonall s c : In c (nonall s) <-> In c (map snd (s_props s)) \/ In c (orbool_list (s_addl s)) \/ In c (others s).
Proof. unfold nonall. rewrite !in_app_iff. reflexivity. Qed.
Lemma in_children_split s c : In c (children s) <-> In c (s_allOf s) \/ In c (nonall s).
Proof. rewrite in_children, in_nonall. reflexivity. Qed.

Definition wf_all := all_nodes node_wf.

Lemma merge_unmixed d src :
  wf_all d -> wf_all src ->
  (forall b, In b (nonall src) -> forall a, wf_all a -> wf_all b -> unmixed (into a b) -> unmixed a /\ unmixed b) ->
  unmixed (merge_node d src (merged_props d src) (merged_addl d src)) ->
  unmixed d /\ unmixed_node src /\ forall c, In c (nonall src) -> unmixed c.
Proof.
  intros Wd Ws IH H. set (m := merge_node _ _ _ _) in *.
  pose proof (all_nodes_root _ _ Wd) as (Nd & _). pose proof (all_nodes_root _ _ Ws) as (Ns & _).
  assert (Hc : forall c, In c (children m) -> unmixed c) by (intros; eapply all_nodes_child; eauto).
  assert (Ho : forall c, In c (others d) \/ In c (others src) -> unmixed c).
  { intros c Hx. apply (others_survive d src c (merged_props d src) (merged_addl d src)) in Hx as [Hx|(r & Hr & Hx)].
    - apply Hc, in_children. auto.
    - apply (all_nodes_child _ r c); [|exact Hx]. apply Hc, in_children. auto. }
  assert (Hp : forall k c, In (k, c) (s_props d) \/ In (k, c) (s_props src) -> unmixed c).
  { intros k c Hx. pose proof (merge_props_get (s_props src) (s_props d) [] k Ns) as G.
    assert (Gin : forall x, mget String.eqb (fst (merge_props (s_props src) (s_props d, []))) k = Some x -> unmixed x).
    { intros x E. apply mget_in' in E. apply Hc. apply (in_props_child m k). exact E. }
    destruct (mget String.eqb (s_props d) k) as [a|] eqn:Ea; destruct (mget String.eqb (s_props src) k) as [b|] eqn:Eb.
    - specialize (Gin _ G). apply mget_in' in Ea as Ia. apply mget_in' in Eb as Ib.
      destruct (IH b) with (a := a) as [Ua Ub]; [| | |exact Gin|].
      + apply in_nonall; left; apply in_map_iff; exists (k, b); auto.
      + eapply all_nodes_child; [exact Wd|eapply in_props_child; eauto].
      + eapply all_nodes_child; [exact Ws|eapply in_props_child; eauto].
      + destruct Hx as [Hx|Hx]; (apply mget_nodup' in Hx; [|assumption]); rewrite Hx in *; try discriminate;
        repeat match goal with H : Some _ = Some _ |- _ => injection H as <- end; assumption.
    - specialize (Gin _ G). destruct Hx as [Hx|Hx]; (apply mget_nodup' in Hx; [|assumption]); rewrite Hx in *; try discriminate;
        repeat match goal with H : Some _ = Some _ |- _ => injection H as <- end; assumption.
    - specialize (Gin _ G). destruct Hx as [Hx|Hx]; (apply mget_nodup' in Hx; [|assumption]); rewrite Hx in *; try discriminate;
        repeat match goal with H : Some _ = Some _ |- _ => injection H as <- end; assumption.
    - destruct Hx as [Hx|Hx]; (apply mget_nodup' in Hx; [|assumption]); rewrite Hx in *; try discriminate;
        repeat match goal with H : Some _ = Some _ |- _ => injection H as <- end; assumption. }
  assert (Ha : forall c, In c (orbool_list (s_addl d)) \/ In c (orbool_list (s_addl src)) -> unmixed c).
  { assert (Hm : forall x, In x (orbool_list (merged_addl d src)) -> unmixed x) by (intros; apply Hc, in_children; auto).
    unfold merged_addl, merge_addl in Hm. intros c.
    assert (G : forall bs x y, s_addl src = Some (bs, Some x) -> In y (orbool_list (s_addl d)) \/ y = schema0 -> unmixed (fst (flatten_into y x)) -> unmixed y /\ unmixed x).
    { intros bs x y Es Hy Hu. apply (IH x); [apply in_nonall; right; left; rewrite Es; left; reflexivity| | |exact Hu].
      - destruct Hy as [Hy| ->]; [eapply all_nodes_child; [exact Wd|apply in_children; right; right; left; exact Hy]|apply all_schema0, schema0_wf].
      - eapply all_nodes_child; [exact Ws|eapply in_addl_child; exact Es]. }
    destruct (s_addl src) as [[bs [x|]]|] eqn:Es; destruct (s_addl d) as [[bd [y|]]|] eqn:Ed; simpl in *;
      intros [Hx|Hx]; try contradiction; destruct Hx as [<-|[]]; try (apply Hm; left; reflexivity).
    - apply (G bs x y eq_refl); [left; left; reflexivity|]. apply Hm. destruct (flatten_into y x). left; reflexivity.
    - apply (G bs x y eq_refl); [left; left; reflexivity|]. apply Hm. destruct (flatten_into y x). left; reflexivity.
    - apply (G bs x schema0 eq_refl); [right; reflexivity|]. apply Hm. destruct (flatten_into schema0 x). left; reflexivity. }
  assert (Hn : unmixed_node d /\ unmixed_node src).
  { pose proof (all_nodes_root _ _ H) as R. unfold unmixed_node in *. unfold m, merge_node in R. cbn [s_props s_addl] in R. destruct R as [R|R].
    - unfold merged_props in R. apply merge_props_nil in R as [R1 R2]; [|exact Ns]. split; left; assumption.
    - unfold merged_addl, merge_addl in R. destruct (s_addl src) as [[bs [x|]]|]; destruct (s_addl d) as [[bd [y|]]|]; simpl in R; 
        try contradiction; try (split; right; exact I).
      + destruct (flatten_into y x); contradiction.
      + destruct (flatten_into schema0 x); contradiction. }
  destruct Hn as [Hn1 Hn2]. split; [|split; [exact Hn2|]].
  - apply all_nodes_intro; [exact Hn1|]. intros c Hx. apply in_children in Hx as [Hx|[Hx|[Hx|Hx]]].
    + apply Hc, in_children. left. unfold m, merge_node. cbn [s_allOf]. apply in_app_iff. left; exact Hx.
    + apply in_map_iff in Hx as ([k x] & <- & Hx). apply (Hp k). left; exact Hx.
    + apply Ha. left; exact Hx.
    + apply Ho. left; exact Hx.
  - intros c Hx. apply in_nonall in Hx as [Hx|[Hx|Hx]].
    + apply in_map_iff in Hx as ([k x] & <- & Hx). apply (Hp k). right; exact Hx.
    + apply Ha. right; exact Hx.
    + apply Ho. right; exact Hx.
Qed.

Lemma into_wf d s : wf_all d -> wf_all s -> wf_all (into d s).
Proof.
  apply into_all; auto using drem_node_wf, srem_node_wf, schema0_wf. intros. apply merge_node_wf; assumption.
Qed.
Lemma fold_schema_wf l d : wf_all d -> (forall e, In e l -> wf_all e) -> wf_all (fold_schema l d).
Proof. revert d. induction l as [|e l IH]; intros d Hd Hl; [exact Hd|]. rewrite fold_schema_cons. apply IH; [apply into_wf|]; auto with datatypes. Qed.

Lemma fold_mono l : (forall e, In e l -> forall a, wf_all a -> wf_all e -> unmixed (into a e) -> unmixed a /\ unmixed e) ->
  forall d, wf_all d -> (forall e, In e l -> wf_all e) -> unmixed (fold_schema l d) -> unmixed d /\ forall e, In e l -> unmixed e.
Proof.
  induction l as [|e l IHl]; intros IH d Hd Hl H; [split; [exact H|intros e []]|]. rewrite fold_schema_cons in H.
  apply IHl in H as [H1 H2]; auto with datatypes.
  - apply IH in H1 as [H3 H4]; auto with datatypes. split; [exact H3|]. intros x [<-|Hx]; auto.
  - apply into_wf; auto with datatypes.
Qed.

Lemma into_mono src : forall a, wf_all a -> wf_all src -> unmixed (into a src) -> unmixed a /\ unmixed src.
Proof.
  induction src as [src IH] using schema_rec_ind. intros dst Hdst Hs H. rewrite into_eq in H. cbv zeta in H.
  assert (Wl : forall e, In e (s_allOf src) -> wf_all e) by (intros e He; eapply all_nodes_child; [exact Hs|apply in_allOf_child, He]).
  apply merge_unmixed in H as (H1 & H2 & H3).
  - apply fold_mono in H1 as [H4 H5]; [|intros e He; apply IH, in_allOf_child, He|exact Hdst|exact Wl]. split; [exact H4|].
    apply all_nodes_intro; [exact H2|]. intros c Hc. apply in_children_split in Hc as [Hc|Hc]; [apply H5|apply H3]; exact Hc.
  - apply fold_schema_wf; assumption.
  - exact Hs.
  - intros b Hb. apply IH. apply in_children_split. right; exact Hb.
Qed.

(** ** Everything the merge accepts is accepted by both schemas *)
Section Validity2.
  Variable O : oracles.
  Notation valid := (valid O).

  Lemma null_free_get obj k x : null_free (JObj obj) = true -> mget String.eqb obj k = Some x -> null_free x = true.
  Proof. simpl. rewrite forallb_forall. intros H E. apply mget_in' in E. exact (H _ E). Qed.
  Lemma null_free_in obj kv : null_free (JObj obj) = true -> In kv obj -> null_free (snd kv) = true.
  Proof. simpl. rewrite forallb_forall. intros H E. exact (H _ E). Qed.

  Definition ge_at (e : schema) : Prop := forall d v, plain d -> plain e -> snd (flatten_into d e) = [] -> unmixed (into d e) ->
    null_free v = true -> valid (into d e) v = true -> valid d v = true /\ valid e v = true.

  Lemma plain_wf_all s : plain s -> wf_all s.
  Proof. intros H x Hx. apply H, Hx. Qed.

  Lemma fold_ge l : (forall e, In e l -> ge_at e) ->
    forall d v, plain d -> (forall e, In e l -> plain e) -> fold_errs l d = [] -> unmixed (fold_schema l d) -> null_free v = true ->
    valid (fold_schema l d) v = true -> valid d v = true /\ forallb (fun c => valid c v) l = true.
  Proof.
    induction l as [|e l IHl]; intros IH d v Hd Hl E U N V; [auto|]. rewrite fold_schema_cons in *. rewrite fold_errs_cons in E.
    apply app_eq_nil in E as [E1 E2]. assert (Pi : plain (into d e)) by (apply into_plain; auto with datatypes).
    destruct (IHl (fun e He => IH e (or_intror He)) (into d e) v) as [V1 V2]; auto with datatypes.
    destruct (fold_mono l (fun x _ a => into_mono x a) (into d e) (plain_wf_all _ Pi) (fun x Hx => plain_wf_all _ (Hl x (or_intror Hx))) U) as [Ui _].
    destruct (IH e (or_introl eq_refl) d v) as [V3 V4]; auto with datatypes. simpl. rewrite V2, V4. auto.
  Qed.

  Lemma into_ge src : ge_at src.
  Proof.
    induction src as [src IH] using schema_rec_ind. intros dst v Hdst Hs E U N V. apply into_errs in E. cbv zeta in E.
    destruct E as (E0 & E1 & E2 & E3). rewrite into_eq in U, V. cbv zeta in U, V.
    pose proof (all_nodes_root _ _ Hs) as Ps.
    assert (Pl : forall e, In e (s_allOf src) -> plain e) by (intros e He; eapply plain_child; [exact Hs|apply in_allOf_child, He]).
    assert (Hd : plain (fold_schema (s_allOf src) dst)) by (apply fold_schema_plain; assumption).
    pose proof (merge_unmixed (fold_schema (s_allOf src) dst) src (plain_wf_all _ Hd) (plain_wf_all _ Hs)) as Um.
    destruct Um as (Ud & Us & _); [intros b _ a; apply into_mono|exact U|].
    assert (Goal1 : valid (fold_schema (s_allOf src) dst) v = true /\ 
       ((forallb (fun c => valid c v) (s_allOf src)) = true -> valid src v = true)).
    2:{ destruct Goal1 as [G1 G2]. apply fold_ge in G1; auto; [|intros e He; apply IH, in_allOf_child, He]. destruct G1 as [G1 G3]. auto. }
    clear E0 Hdst. set (d := fold_schema (s_allOf src) dst) in *. clearbody d. pose proof (all_nodes_root _ _ Hd) as Pd.
    rewrite merge_node_valid in V by assumption. rewrite (valid_plain O d v) by apply Pd. rewrite (valid_plain O src v) by apply Ps.
    unfold node_ok. rewrite !andb_true_iff in V. destruct V as [[[[[[[[Vk [Da Sa]] Dl] [Do So]] [Dn Sn]] [Dt St]] Vp] Va] [Dx Sx]].
    apply kw_merge_ge in Vk; [|apply Pd|apply Pd|apply Ps|apply Ps|exact E1|destruct v; discriminate]. destruct Vk as [Dk Sk].
    rewrite Dk, Sk, Da, Sa, Dl, Do, So, Dn, Sn, Dt, St, Dx, Sx. simpl.
    assert (G : (props_ok O (s_props d) v = true /\ props_ok O (s_props src) v = true) /\
                (addl_ok O (s_props d) (s_addl d) v = true /\ addl_ok O (s_props src) (s_addl src) v = true)).
    2:{ destruct G as [[-> ->] [-> ->]]. simpl. split; [reflexivity|]. intros ->. reflexivity. }
    clear - IH Hs Hd Ps Pd E2 E3 Ud Us Vp Va N U.
    destruct Pd as ((Nd & _) & _ & _ & _ & _ & _ & Ad), Ps as ((Ns & _) & _ & _ & _ & _ & _ & As_).
    pose proof (all_nodes_root _ _ U) as Un. unfold unmixed_node, merge_node in Un. simpl in Un.
    destruct v as [| | | | |obj]; try (simpl; auto; fail). split.
    - unfold props_ok in *. cbn [on_obj] in *. rewrite !forallb_forall in *. apply merge_props_errs in E2; [|exact Ns]. destruct E2 as [_ E2].
      assert (Hk : forall k x, mget String.eqb obj k = Some x ->
                (forall a, mget String.eqb (s_props d) k = Some a -> valid a x = true) /\
                (forall b, mget String.eqb (s_props src) k = Some b -> valid b x = true)).
      { intros k x Ek. pose proof (merge_props_get (s_props src) (s_props d) [] k Ns) as G.
        assert (Gin : forall m, mget String.eqb (fst (merge_props (s_props src) (s_props d, []))) k = Some m ->
                       valid m x = true /\ In (k, m) (merged_props d src)).
        { intros m Em. apply mget_in' in Em. specialize (Vp _ Em). cbn [fst snd] in Vp. rewrite Ek in Vp. auto. }
        destruct (mget String.eqb (s_props d) k) as [a|] eqn:Ea; destruct (mget String.eqb (s_props src) k) as [b|] eqn:Eb.
        - destruct (Gin _ G) as [Gv Gi]. apply mget_in' in Ea as Ia. apply mget_in' in Eb as Ib.
          destruct (IH b) with (d := a) (v := x) as [V1 V2]; auto.
          + eapply in_props_child; eauto. + eapply plain_child; [exact Hd|eapply in_props_child; eauto].
          + eapply plain_child; [exact Hs|eapply in_props_child; eauto]. + eapply E2; eauto.
          + eapply all_nodes_child; [exact U|]. eapply in_props_child. exact Gi.
          + eapply null_free_get; eauto.
          + split; intros ? [= <-]; assumption.
        - destruct (Gin _ G) as [Gv Gi]. split; [intros ? [= <-]; assumption|discriminate].
        - destruct (Gin _ G) as [Gv Gi]. split; [discriminate|intros ? [= <-]; assumption].
        - split; discriminate. }
      split; intros [k c] Hc; cbn [fst snd]; destruct (mget String.eqb obj k) as [x|] eqn:Ek; try reflexivity;
        destruct (Hk k x Ek) as [K1 K2]; [apply K1|apply K2]; apply mget_nodup'; assumption.
    - unfold addl_ok in *. cbn [on_obj] in *. unfold merged_addl, merged_props in *.
      assert (Triv : forall b P, b = true -> forallb (fun kv : string * json => mem_str (fst kv) P || b) obj = true).
      { intros b P ->. apply forallb_forall. intros. apply orb_true_r. }
      assert (Bd : forall b, s_addl d = Some (b, None) -> b = true) by (intros [|] E; [reflexivity|congruence]).
      assert (Bs : forall b, s_addl src = Some (b, None) -> b = true) by (intros [|] E; [reflexivity|congruence]).
      unfold merge_addl in Va, E3, Un. destruct (s_addl src) as [[bs [x|]]|] eqn:Es; destruct (s_addl d) as [[bd [y|]]|] eqn:Ed; cbn [fst snd] in *.
      + destruct (flatten_into y x) as [x' es'] eqn:E. cbn [fst snd] in *. destruct Un as [Un|[]]. rewrite Un in Va.
        unfold merged_props in Un. apply merge_props_nil in Un as [-> ->]; [|exact Ns]. simpl in Va |- *.
        assert (G : forall kv, In kv obj -> valid y (snd kv) = true /\ valid x (snd kv) = true).
        { intros kv Hkv. rewrite forallb_forall in Va. specialize (Va _ Hkv). destruct (IH x) with (d := y) (v := snd kv) as [V1 V2]; auto.
          - eapply in_addl_child; eauto. - eapply plain_child; [exact Hd|eapply in_addl_child; eauto].
          - eapply plain_child; [exact Hs|eapply in_addl_child; eauto]. - rewrite E; exact E3.
          - eapply all_nodes_child; [exact U|]. apply (in_addl_child _ bd). unfold merge_node, merged_addl, merge_addl, into. simpl. rewrite E. reflexivity.
          - eapply null_free_in; eauto. - unfold into. rewrite E. exact Va. }
        split; apply forallb_forall; intros kv Hkv; apply G, Hkv.
      + destruct (flatten_into schema0 x) as [x' es'] eqn:E. cbn [fst snd] in *. destruct Un as [Un|[]]. rewrite Un in Va.
        unfold merged_props in Un. apply merge_props_nil in Un as [-> ->]; [|exact Ns]. split; [apply Triv; eauto|]. simpl in Va |- *.
        apply forallb_forall. intros kv Hkv. rewrite forallb_forall in Va. specialize (Va _ Hkv).
        destruct (IH x) with (d := schema0) (v := snd kv) as [V1 V2]; auto.
        * eapply in_addl_child; eauto. * apply all_schema0, plain_schema0.
        * eapply plain_child; [exact Hs|eapply in_addl_child; eauto]. * rewrite E; exact E3.
        * eapply all_nodes_child; [exact U|]. apply (in_addl_child _ bd). unfold merge_node, merged_addl, merge_addl, into. simpl. rewrite E. reflexivity.
        * eapply null_free_in; eauto. * unfold into. rewrite E. exact Va.
      + destruct Un as [Un|[]]. unfold merged_props in Un. rewrite Un in Va. apply merge_props_nil in Un as [-> _]; [|exact Ns]. split; [reflexivity|exact Va].
      + destruct Un as [Un|[]]. unfold merged_props in Un. rewrite Un in Va. apply merge_props_nil in Un as [_ ->]; [|exact Ns]. split; [exact Va|apply Triv; eauto].
      + split; apply Triv; eauto.
      + split; [reflexivity|apply Triv; eauto].
      + destruct Un as [Un|[]]. unfold merged_props in Un. rewrite Un in Va. apply merge_props_nil in Un as [_ ->]; [|exact Ns]. split; [exact Va|reflexivity].
      + split; [apply Triv; eauto|reflexivity].
      + split; reflexivity.
  Qed.
End Validity2.
