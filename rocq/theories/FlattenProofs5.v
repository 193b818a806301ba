(** * FlattenEmbedded and validity. *)

From Coq Require Import List String ZArith QArith Bool Lia Permutation.
From Verif Require Import GoLib GoLibFacts SchemaModel SchemaFacts WalkModel WalkSpec WalkProofs FlattenModel ValidSpec FlattenSpec
  FlattenProofs FlattenProofs2 FlattenProofs3 FlattenProofs4.
Import ListNotations.
Open Scope string_scope.
Open Scope list_scope.
Open Scope nat_scope.

Lemma children_map_children g s : children (map_children g s) = map g (children s).
Proof.
  destruct s as [k it ao oo an nt pr ad pp dp ai df]. unfold children, map_children; simpl. rewrite !map_app, !map_map. simpl.
  apply f_equal2; [destruct it as [[[o|] l]|]; simpl; reflexivity|].
  repeat (apply f_equal2; [reflexivity|]). apply f_equal2; [destruct nt; reflexivity|]. apply f_equal2; [reflexivity|].
  apply f_equal2; [destruct ad as [[b [o|]]|]; reflexivity|]. apply f_equal2; [reflexivity|].
  apply f_equal2; [|apply f_equal2; [destruct ai as [[b [o|]]|]; reflexivity|reflexivity]].
  rewrite flat_map_map'. induction dp as [|[n [[o|] l]] dp IH]; simpl; [reflexivity|..]; rewrite <- IH; reflexivity.
Qed.

(** ** No allOf: nothing to do *)
Definition allOf_free := all_nodes (fun x => s_allOf x = []).
Lemma fl_id n : forall s, allOf_free s -> fl n s = (s, []).
Proof.
  induction n as [|n IH]; intros s H; [reflexivity|]. cbn [fl]. assert (E : s_allOf s = []) by apply (all_nodes_root _ _ H).
  rewrite av_id by exact E. f_equal.
  - transitivity (map_children (fun c => c) s); [|apply map_children_id]. apply map_children_ext. intros c Hc.
    rewrite IH; [reflexivity|]. eapply all_nodes_child; eauto.
  - unfold av_errs. rewrite E. simpl. assert (Hc : forall c, In c (children s) -> snd (fl n c) = []).
    { intros c Hc. rewrite IH; [reflexivity|]. eapply all_nodes_child; eauto. }
    revert Hc. generalize (children s) as l. induction l as [|c l IHl]; intros Hc; [reflexivity|]. simpl. rewrite Hc by (left; reflexivity).
    apply IHl. auto with datatypes.
Qed.

Lemma map_children_unmixed_node g s : unmixed_node (map_children g s) <-> unmixed_node s.
Proof.
  unfold unmixed_node, map_children. simpl. destruct (s_props s); destruct (s_addl s) as [[b [o|]]|]; simpl; split; intros [H|H]; auto; discriminate.
Qed.

Lemma forallb_map (A B : Type) (f : A -> B) (g : B -> bool) l : forallb g (map f l) = forallb (fun x => g (f x)) l.
Proof. induction l as [|x l IH]; simpl; [reflexivity|]. rewrite IH. reflexivity. Qed.

Lemma fl_unmixed n : forall s, wf_all s -> unmixed (fst (fl n s)) -> (n <> 0 -> unmixed (av s)) /\ unmixed s.
Proof.
  induction n as [|n IH]; intros s W H; [split; [congruence|exact H]|]. cbn [fl fst] in H.
  assert (U : unmixed (av s)).
  { apply all_nodes_intro; [apply (map_children_unmixed_node (fun c => fst (fl n c))), (all_nodes_root _ _ H)|]. intros c Hc.
    apply IH; [eapply all_nodes_child; [apply av_wf, W|exact Hc]|]. eapply all_nodes_child; [exact H|].
    rewrite children_map_children. apply in_map_iff. exists c. auto. }
  split; [intros _; exact U|]. unfold av in U.
  destruct (fold_mono (s_allOf s) (fun x _ a => into_mono x a) (set_allOf s []) (wf_set_allOf _ W) (fun e => child_allOf_all _ s e W) U) as [U1 U2].
  apply all_nodes_intro; [exact (all_nodes_root _ _ U1)|]. intros c Hc. apply in_children_split in Hc as [Hc|Hc]; [apply U2, Hc|].
  eapply all_nodes_child; [exact U1|]. apply in_children_split. right. exact Hc.
Qed.

(** ** Mapping the children *)
Section MapChildren.
  Variable O : oracles.
  Notation valid := (valid O).
  Variable Pv : json -> Prop.
  Hypothesis Pv_arr : forall l x, Pv (JArr l) -> In x l -> Pv x.
  Hypothesis Pv_obj : forall l k x, Pv (JObj l) -> In (k, x) l -> Pv x.

  Lemma map_children_plain g s : no_tuple (s_items s) -> s_patprops s = [] -> no_tuple (s_items (map_children g s)) /\ s_patprops (map_children g s) = [].
  Proof. unfold map_children, no_tuple. simpl. intros H ->. destruct (s_items s) as [[o l]|]; [subst l|]; auto. Qed.

  Lemma in_opt_child s c : s_not s = Some c -> In c (children s).
  Proof. intros H. apply in_children. do 3 right. unfold others. rewrite !in_app_iff, H. simpl. auto 10. Qed.
  Lemma in_oneOf_child s c : In c (s_oneOf s) -> In c (children s).
  Proof. intros H. apply in_children. do 3 right. unfold others. rewrite !in_app_iff. auto. Qed.
  Lemma in_anyOf_child s c : In c (s_anyOf s) -> In c (children s).
  Proof. intros H. apply in_children. do 3 right. unfold others. rewrite !in_app_iff. auto. Qed.
  Lemma in_item_child s c l : s_items s = Some (Some c, l) -> In c (children s).
  Proof. intros H. apply in_children. do 3 right. unfold others. rewrite !in_app_iff, H. simpl. auto. Qed.
  Lemma in_dep_child s k c names : In (k, (Some c, names)) (s_deps s) -> In c (children s).
  Proof.
    intros H. apply in_children. do 3 right. unfold others. rewrite !in_app_iff. do 5 right; left. apply in_flat_map.
    exists (k, (Some c, names)). split; [exact H|]. simpl. auto.
  Qed.

  Lemma valid_map_children2 O' g s v : kw_ok O' (s_kw s) v = kw_ok O (s_kw s) v -> no_tuple (s_items s) -> s_patprops s = [] ->
    (forall c, In c (children s) -> forall x, Pv x -> ValidSpec.valid O' (g c) x = valid c x) -> Pv v ->
    ValidSpec.valid O' (map_children g s) v = valid s v.
  Proof.
    intros Hk Ht Hp H HP. destruct (map_children_plain g s Ht Hp) as [Ht' Hp']. rewrite (valid_plain O' _ v Ht' Hp'), (valid_plain O s v Ht Hp).
    unfold node_ok, map_children. cbn [s_kw s_items s_allOf s_oneOf s_anyOf s_not s_props s_addl s_deps].
    assert (Hf : forall l, (forall c, In c l -> In c (children s)) -> forall c, In c l -> ValidSpec.valid O' (g c) v = valid c v) by (intros; apply H; auto).
    apply f_equal2; [apply f_equal2; [apply f_equal2; [apply f_equal2; [apply f_equal2; [apply f_equal2; [apply f_equal2; [apply f_equal2; [exact Hk|]|]|]|]|]|]|]|].
    - unfold arr_ok. destruct v as [| | | |l|]; try reflexivity. simpl. destruct (s_items s) as [[[o|] t]|] eqn:E; try reflexivity. simpl.
      apply forallb_ext_eq. intros x Hx. apply H; [eapply in_item_child; eauto|eapply Pv_arr; eauto].
    - rewrite forallb_map. apply forallb_ext_eq. apply Hf. intros; apply in_allOf_child; assumption.
    - unfold one_ok. pose proof (Hf (s_oneOf s) (fun c => in_oneOf_child s c)) as Ho. destruct (s_oneOf s) as [|a l]; [reflexivity|]. cbn [map].
      f_equal. change (g a :: map g l) with (map g (a :: l)). revert Ho. generalize (a :: l) as l'. induction l' as [|b l' IH]; intros Ho; [reflexivity|].
      simpl. rewrite Ho by (left; reflexivity). destruct (valid b v); simpl; rewrite IH by auto with datatypes; reflexivity.
    - unfold any_ok. pose proof (Hf (s_anyOf s) (fun c => in_anyOf_child s c)) as Ho. destruct (s_anyOf s) as [|a l]; [reflexivity|]. cbn [map].
      change (g a :: map g l) with (map g (a :: l)). revert Ho. generalize (a :: l) as l'. induction l' as [|b l' IH]; intros Ho; [reflexivity|].
      simpl. rewrite Ho by (left; reflexivity). rewrite IH by auto with datatypes; reflexivity.
    - unfold not_ok. destruct (s_not s) as [c|] eqn:E; [|reflexivity]. simpl. rewrite H; [reflexivity|apply in_opt_child, E|exact HP].
    - unfold props_ok. destruct v as [| | | | |l]; try reflexivity. simpl. rewrite forallb_map. apply forallb_ext_eq. intros [k c] Hc. simpl.
      destruct (mget String.eqb l k) as [x|] eqn:E; [|reflexivity]. apply H; [eapply in_props_child; eauto|]. apply mget_in' in E. eapply Pv_obj; eauto.
    - unfold addl_ok. destruct v as [| | | | |l]; try reflexivity. simpl. destruct (s_addl s) as [[b [o|]]|] eqn:E; try reflexivity; simpl.
      + apply forallb_ext_eq. intros [k x] Hx. simpl. rewrite map_map. simpl. f_equal. apply H; [eapply in_addl_child; eauto|eapply Pv_obj; eauto].
      + rewrite map_map. reflexivity.
    - unfold deps_ok. destruct v as [| | | | |l]; try reflexivity. simpl. rewrite forallb_map. apply forallb_ext_eq. intros [k [o names]] Hc. simpl.
      f_equal. f_equal. destruct o as [c|]; [|reflexivity]. simpl. apply H; [eapply in_dep_child; eauto|exact HP].
  Qed.

  Lemma valid_map_children g s v : no_tuple (s_items s) -> s_patprops s = [] ->
    (forall c, In c (children s) -> forall x, Pv x -> valid (g c) x = valid c x) -> Pv v ->
    valid (map_children g s) v = valid s v.
  Proof. apply valid_map_children2. reflexivity. Qed.

  Lemma valid_map_children_le g s v : no_tuple (s_items s) -> s_patprops s = [] ->
    (forall c, In c (children s) -> forall x, Pv x -> valid c x = true -> valid (g c) x = true) ->
    (forall c, In c (s_oneOf s) \/ s_not s = Some c -> g c = c) -> Pv v ->
    valid s v = true -> valid (map_children g s) v = true.
  Proof.
    intros Ht Hp H Hq HP. destruct (map_children_plain g s Ht Hp) as [Ht' Hp']. rewrite (valid_plain O _ v Ht' Hp'), (valid_plain O s v Ht Hp).
    unfold node_ok, map_children. cbn [s_kw s_items s_allOf s_oneOf s_anyOf s_not s_props s_addl s_deps].
    rewrite !andb_true_iff. intros [[[[[[[[Sk Sa] Sl] So] Sn] St] Sp] Sd] Sx]. repeat split; auto.
    - unfold arr_ok in *. destruct v as [| | | |l|]; try reflexivity. simpl in *. destruct (s_items s) as [[[o|] t]|] eqn:E; try reflexivity. simpl.
      rewrite forallb_forall in *. intros x Hx. apply H; [eapply in_item_child; eauto|eapply Pv_arr; eauto|auto].
    - rewrite forallb_map. rewrite forallb_forall in *. intros c Hc. apply H; [apply in_allOf_child, Hc|exact HP|auto].
    - replace (map g (s_oneOf s)) with (s_oneOf s); [exact So|]. symmetry. apply map_ext_id. intros c Hc. apply Hq. auto.
    - unfold any_ok in *. pose proof (in_anyOf_child s) as Ho. destruct (s_anyOf s) as [|a l]; [reflexivity|]. cbn [map].
      change (g a :: map g l) with (map g (a :: l)). apply existsb_exists in Sn as (c & Hc & Hv). apply existsb_exists. exists (g c).
      split; [apply in_map, Hc|]. apply H; auto.
    - replace (option_map g (s_not s)) with (s_not s); [exact St|]. destruct (s_not s) as [c|] eqn:E; [|reflexivity]. simpl. rewrite Hq; auto.
    - unfold props_ok in *. destruct v as [| | | | |l]; try reflexivity. simpl in *. rewrite forallb_map. rewrite forallb_forall in *. intros [k c] Hc. simpl.
      specialize (Sp _ Hc). simpl in Sp. destruct (mget String.eqb l k) as [x|] eqn:E; [|reflexivity]. apply H; [eapply in_props_child; eauto| |exact Sp].
      apply mget_in' in E. eapply Pv_obj; eauto.
    - unfold addl_ok in *. destruct v as [| | | | |l]; try reflexivity. simpl in *. destruct (s_addl s) as [[b [o|]]|] eqn:E; try reflexivity; simpl.
      + rewrite forallb_forall in *. intros [k x] Hx. specialize (Sd _ Hx). simpl in *. rewrite map_map. cbn [fst]. change (map (fun x0 : string * schema => fst x0) (s_props s)) with (map fst (s_props s)).
        apply orb_true_iff in Sd as [Sd|Sd]; [rewrite Sd; reflexivity|]. rewrite (H o); [apply orb_true_r|eapply in_addl_child; eauto|eapply Pv_obj; eauto|exact Sd].
      + rewrite map_map. exact Sd.
    - unfold deps_ok in *. destruct v as [| | | | |l]; try reflexivity. simpl in *. rewrite forallb_map. rewrite forallb_forall in *. intros [k [o names]] Hc. simpl.
      specialize (Sx _ Hc). simpl in Sx. apply orb_true_iff in Sx as [Sx|Sx]; [rewrite Sx; reflexivity|]. apply andb_true_iff in Sx as [S1 S2].
      rewrite S2, andb_true_r. destruct o as [c|]; [|apply orb_true_r]. simpl. rewrite (H c); [apply orb_true_r|eapply in_dep_child; eauto|exact HP|exact S1].
  Qed.
End MapChildren.

Lemma flat_map_nil (A B : Type) (f : A -> list B) l : flat_map f l = [] -> forall x, In x l -> f x = [].
Proof. induction l as [|y l IH]; simpl; [tauto|]. intros H. apply app_eq_nil in H as [H1 H2]. intros x [<-|Hx]; auto. Qed.

Section FlValid.
  Variable O : oracles.
  Notation valid := (valid O).

  Lemma valid_set_allOf s v : plain_node s ->
    valid s v = valid (set_allOf s []) v && forallb (fun c => valid c v) (s_allOf s).
  Proof.
    intros P. rewrite (valid_plain O s) by apply P. rewrite (valid_plain O (set_allOf s [])) by apply P.
    unfold node_ok, set_allOf. simpl. apply eq_true_iff_eq. rewrite !andb_true_iff. tauto.
  Qed.

  Lemma av_valid s v : plain s -> av_errs s = [] -> unmixed (av s) -> null_free v = true -> valid (av s) v = valid s v.
  Proof.
    intros P E U N. rewrite (valid_set_allOf s v (all_nodes_root _ _ P)). apply eq_true_iff_eq. rewrite andb_true_iff. split.
    - intros V. unfold av in *. apply (fold_ge O (s_allOf s)); auto; [intros; apply into_ge|apply plain_set_allOf, P|intros e; apply child_allOf_all, P].
    - intros [V1 V2]. unfold av. apply fold_le; auto; [intros e _; apply into_le|apply plain_set_allOf, P|intros e; apply child_allOf_all, P].
  Qed.

  Lemma fl_valid n : forall s v, plain s -> snd (fl n s) = [] -> unmixed (fst (fl n s)) -> null_free v = true ->
    valid (fst (fl n s)) v = valid s v.
  Proof.
    induction n as [|n IH]; intros s v P E U N; [reflexivity|].
    destruct (fl_unmixed (S n) s (plain_wf_all _ P) U) as [Ua _]. specialize (Ua (Nat.neq_succ_0 n)).
    cbn [fl fst snd] in *. apply app_eq_nil in E as [E1 E2]. pose proof (av_plain s P) as Pa. pose proof (all_nodes_root _ _ Pa) as Pn.
    rewrite <- (av_valid s v P E1 Ua N). apply (valid_map_children O (fun v => null_free v = true)); auto.
    - intros l x. simpl. rewrite forallb_forall. auto.
    - intros l k x. simpl. rewrite forallb_forall. intros H Hx. exact (H _ Hx).
    - apply Pn.
    - apply Pn.
    - intros c Hc x Hx. apply IH; auto.
      + eapply plain_child; eauto.
      + exact (flat_map_nil _ _ _ _ E2 c Hc).
      + eapply all_nodes_child; [exact U|]. rewrite children_map_children. apply in_map_iff. exists c. auto.
  Qed.

  (** One direction needs neither absence of errors nor of mixed nodes. *)
  Lemma pos_merge d s P A : positive_node d -> positive_node s -> positive_node (merge_node d s P A).
  Proof.
    intros Hd Hs c [Hc|Hc]; unfold merge_node in Hc; cbn [s_oneOf s_not] in Hc.
    - destruct (keep_slice_cases (s_oneOf d) (s_oneOf s)) as [(_ & [E|E] & _)|(_ & E & _)]; rewrite E in Hc; [apply Hd|apply Hs|destruct Hc]; auto.
    - destruct (keep_ptr_cases (s_not d) (s_not s)) as [(_ & [E|E] & _)|(_ & E & _)]; rewrite E in Hc; [apply Hd|apply Hs|discriminate]; auto.
  Qed.
  Lemma pos_drem d s : positive_node d -> positive_node (dst_remainder d s).
  Proof.
    intros Hd c [Hc|Hc]; unfold dst_remainder in Hc; cbn [s_oneOf s_not] in Hc.
    - destruct (keep_slice_cases (s_oneOf d) (s_oneOf s)) as [(_ & _ & E & _)|(_ & _ & E & _)]; rewrite E in Hc; [destruct Hc|apply Hd]; auto.
    - destruct (keep_ptr_cases (s_not d) (s_not s)) as [(_ & _ & E & _)|(_ & _ & E & _)]; rewrite E in Hc; [discriminate|apply Hd]; auto.
  Qed.
  Lemma pos_srem d s : positive_node s -> positive_node (src_remainder d s).
  Proof.
    intros Hd c [Hc|Hc]; unfold src_remainder in Hc; cbn [s_oneOf s_not] in Hc.
    - destruct (keep_slice_cases (s_oneOf d) (s_oneOf s)) as [(_ & _ & _ & E)|(_ & _ & _ & E)]; rewrite E in Hc; [destruct Hc|apply Hd]; auto.
    - destruct (keep_ptr_cases (s_not d) (s_not s)) as [(_ & _ & _ & E)|(_ & _ & _ & E)]; rewrite E in Hc; [discriminate|apply Hd]; auto.
  Qed.
  Definition pp := all_nodes (fun s => plain_node s /\ positive_node s).
  Lemma av_pp s : pp s -> pp (av s).
  Proof.
    intros H. unfold av, fold_schema. apply fold_into_all.
    - intros x Hx. apply Hx.
    - split; [apply plain_schema0|]. intros c [[]|Hc]; discriminate.
    - intros a b [A1 A2] [B1 B2]. split; [apply plain_merge|apply pos_merge]; assumption.
    - intros a b [A1 A2] [B1 B2]. split; [apply plain_drem|apply pos_drem]; assumption.
    - intros a b [A1 A2] [B1 B2]. split; [apply plain_srem|apply pos_srem]; assumption.
    - apply all_set_allOf; auto.
    - intros e. apply child_allOf_all, H.
  Qed.
  Lemma pp_plain s : pp s -> plain s.
  Proof. intros H x Hx. apply (H x Hx). Qed.

  Lemma fl_accepts n : forall s v, pp s -> valid s v = true -> valid (fst (fl n s)) v = true.
  Proof.
    induction n as [|n IH]; intros s v P V; [exact V|]. cbn [fl fst]. pose proof (av_pp s P) as Pa. pose proof (all_nodes_root _ _ Pa) as [Pn Pq].
    apply (valid_map_children_le O (fun _ => True)); auto.
    - apply Pn.
    - apply Pn.
    - intros c Hc x _ Hx. apply IH; [eapply all_nodes_child; eauto|exact Hx].
    - intros c Hc. rewrite fl_id; [reflexivity|]. apply Pq, Hc.
    - pose proof (pp_plain s P) as Pp. rewrite (valid_set_allOf s v (all_nodes_root _ _ Pp)) in V. apply andb_true_iff in V as [V1 V2].
      unfold av. apply fold_le; auto; [intros e _; apply into_le|apply plain_set_allOf, Pp|intros e; apply child_allOf_all, Pp].
  Qed.
End FlValid.

(** ** What is left below allOf *)
Definition rem_allOf (s : schema) : Prop := forall e, In e (s_allOf s) -> remainder_node e.
Lemma rem_drem d s : remainder_node (dst_remainder d s).
Proof. repeat split. Qed.
Lemma rem_srem d s : remainder_node (src_remainder d s).
Proof. repeat split. Qed.
Lemma merge_rem d s P A : rem_allOf d -> rem_allOf (merge_node d s P A).
Proof.
  intros H e. unfold merge_node. cbn [s_allOf]. rewrite in_app_iff. intros [He|He]; [apply H, He|].
  destruct (_ || _); [|destruct He]. destruct He as [<-|[<-|[]]]; [apply rem_drem|apply rem_srem].
Qed.
Lemma into_rem src : forall d, rem_allOf d -> rem_allOf (into d src).
Proof.
  induction src as [src IH] using schema_rec_ind. intros d Hd. rewrite into_eq. apply merge_rem.
  assert (Hin : forall e, In e (s_allOf src) -> In e (children src)) by (intros; apply in_allOf_child; assumption).
  revert d Hd Hin. generalize (s_allOf src) as l. induction l as [|e l IHl]; intros d Hd Hin; [exact Hd|].
  rewrite fold_schema_cons. apply IHl; auto with datatypes.
Qed.
Lemma av_rem s : rem_allOf (av s).
Proof.
  unfold av. assert (H : rem_allOf (set_allOf s [])) by (intros e []). revert H. generalize (set_allOf s []) as d. generalize (s_allOf s) as l.
  induction l as [|e l IH]; intros d Hd; [exact Hd|]. rewrite fold_schema_cons. apply IH, into_rem, Hd.
Qed.

Lemma fl_rem_node n s : remainder_node s -> remainder_node (fst (fl n s)).
Proof.
  destruct n as [|n]; [auto|]. intros H. destruct H as (H1 & H2 & H3 & H). cbn [fl fst]. rewrite av_id by exact H1.
  unfold map_children. repeat split; cbn [s_allOf s_props s_addl s_kw]; rewrite ?H1, ?H2, ?H3; try reflexivity; apply H.
Qed.

Lemma fl_remainders : forall fuel n s, wf_all s -> dle n s -> need n s <= fuel -> all_nodes rem_allOf (fst (fl fuel s)).
Proof.
  induction fuel as [|fuel IH]; intros n s G Hn Hf; [unfold need in Hf; destruct (s_allOf s); lia|]. cbn [fl fst].
  apply all_nodes_intro.
  - intros e He. unfold map_children in He. cbn [s_allOf] in He. apply in_map_iff in He as (e' & <- & He'). apply fl_rem_node, (av_rem s), He'.
  - intros c Hc. rewrite children_map_children in Hc. apply in_map_iff in Hc as (c' & <- & Hc').
    destruct (need_child n s c' G Hn Hc') as (m & Hm & Hl). apply (IH m); [eapply all_nodes_child; [apply av_wf, G|exact Hc']|exact Hm|lia].
Qed.
