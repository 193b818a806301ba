(** * Facts about flattenAllOfInto. *)

From Coq Require Import List String ZArith QArith Bool Lia Permutation.
From Verif Require Import GoLib GoLibFacts SchemaModel SchemaFacts WalkModel WalkSpec WalkProofs FlattenModel ValidSpec FlattenSpec.
Import ListNotations.
Open Scope string_scope.
Open Scope list_scope.
Open Scope nat_scope.

Lemma all_nodes_root Q s : all_nodes Q s -> Q s.
Proof. intros H. apply H, subschemas_self. Qed.
Lemma all_nodes_child Q s c : all_nodes Q s -> In c (children s) -> all_nodes Q c.
Proof. intros H Hc x Hx. apply H. eapply subschemas_child; eauto. Qed.
Lemma all_nodes_intro (Q : schema -> Prop) s : Q s -> (forall c, In c (children s) -> all_nodes Q c) -> all_nodes Q s.
Proof. intros H1 H2 x Hx. apply subschemas_inv in Hx as [->|(c & Hc & Hx)]; [exact H1|exact (H2 c Hc x Hx)]. Qed.

(** ** Children by kind *)
Definition others (s : schema) : list schema :=
  items_list (s_items s) ++ s_oneOf s ++ s_anyOf s ++ opt_list (s_not s) ++
  map snd (s_patprops s) ++ flat_map (fun d => opt_list (fst (snd d))) (s_deps s) ++ orbool_list (s_addl_items s) ++ map snd (s_defs s).

Lemma in_children s c : In c (children s) <-> In c (s_allOf s) \/ In c (map snd (s_props s)) \/ In c (orbool_list (s_addl s)) \/ In c (others s).
Proof. unfold children, others. rewrite !in_app_iff. intuition. Qed.

(** ** The equations of flatten_into *)
Definition fold_into (l : list schema) (acc : schema * list terr) : schema * list terr :=
  fold_left (fun acc e => let (d', es') := flatten_into (fst acc) e in (d', snd acc ++ es')) l acc.
Definition merge_props (l : list (string * schema)) (acc : list (string * schema) * list terr) :=
  fold_left (fun acc p =>
      match mget String.eqb (fst acc) (fst p) with
      | None => (mset String.eqb (fst acc) (fst p) (snd p), snd acc)
      | Some dp => let (dp', es') := flatten_into dp (snd p) in (mset String.eqb (fst acc) (fst p) dp', snd acc ++ es')
      end) l acc.
Definition merge_addl (a b : option (bool * option schema)) : option (bool * option schema) * list terr :=
  match a, b with
  | None, a => (a, [])
  | Some a, None => (Some a, [])
  | Some (_, None), Some a => (Some a, [])
  | Some (_, Some x), Some (b, o) =>
      let (x', es') := flatten_into (match o with Some y => y | None => schema0 end) x in (Some (b, Some x'), es')
  end.

Lemma flatten_into_eq dst src :
  flatten_into dst src =
  let d := fst (fold_into (s_allOf src) (dst, [])) in
  let P := merge_props (s_props src) (s_props d, []) in
  let A := merge_addl (s_addl src) (s_addl d) in
  (merge_node d src (fst P) (fst A),
   snd (fold_into (s_allOf src) (dst, [])) ++ type_error (k_type (s_kw d)) (k_type (s_kw src)) ++ snd P ++ snd A).
Proof.
  destruct src as [k it ao oo an nt pr ad pp dp ai df]. cbn [flatten_into s_allOf s_props s_addl].
  unfold fold_into, merge_props. cbv zeta. destruct (fold_left _ ao (dst, [])) as [d es0]. cbn [fst snd].
  destruct (fold_left _ pr (s_props d, [])) as [P es2]. cbn [fst snd].
  unfold merge_addl. destruct ad as [[b [x|]]|]; destruct (s_addl d) as [[b' o]|]; try reflexivity.
  destruct (flatten_into _ x) as [x' es']. reflexivity.
Qed.

(** ** Properties as maps *)
Lemma mget_mset_eq (A : Type) (m : list (string * A)) k v : mget String.eqb (mset String.eqb m k v) k = Some v.
Proof.
  induction m as [|[k' v'] m IH]; simpl; [rewrite String.eqb_refl; reflexivity|].
  destruct (String.eqb k k') eqn:E; simpl; rewrite E; [reflexivity|exact IH].
Qed.
Lemma mget_mset_neq (A : Type) (m : list (string * A)) k k' v : k' <> k -> mget String.eqb (mset String.eqb m k v) k' = mget String.eqb m k'.
Proof.
  intros Hn. induction m as [|[k0 v0] m IH]; simpl.
  - destruct (String.eqb k' k) eqn:E; [apply String.eqb_eq in E; congruence|reflexivity].
  - destruct (String.eqb k k0) eqn:E; simpl.
    + apply String.eqb_eq in E. subst k0. destruct (String.eqb k' k) eqn:E'; [apply String.eqb_eq in E'; congruence|reflexivity].
    + destruct (String.eqb k' k0); [reflexivity|exact IH].
Qed.
Lemma mkeys_mset (A : Type) (m : list (string * A)) k v x : In x (mkeys (mset String.eqb m k v)) <-> x = k \/ In x (mkeys m).
Proof.
  induction m as [|[k0 v0] m IH]; simpl; [intuition|]. destruct (String.eqb k k0) eqn:E; simpl.
  - apply String.eqb_eq in E. subst k0. intuition.
  - rewrite IH. intuition.
Qed.
Lemma mset_nodup' (A : Type) (m : list (string * A)) k v : NoDup (mkeys m) -> NoDup (mkeys (mset String.eqb m k v)).
Proof.
  induction m as [|[k0 v0] m IH]; simpl; intros H; [repeat constructor; simpl; tauto|]. inversion H as [|? ? Hn H']; subst.
  destruct (String.eqb k k0) eqn:E; simpl; [constructor; assumption|]. constructor; [|apply IH; exact H'].
  fold (mkeys (mset String.eqb m k v)). rewrite mkeys_mset. apply String.eqb_neq in E. intros [->|Hx]; [congruence|contradiction].
Qed.
Lemma mget_in' (A : Type) (m : list (string * A)) k v : mget String.eqb m k = Some v -> In (k, v) m.
Proof.
  induction m as [|[k0 v0] m IH]; simpl; [discriminate|]. destruct (String.eqb k k0) eqn:E.
  - apply String.eqb_eq in E. intros [= ->]. left; congruence.
  - intros H. right; apply IH, H.
Qed.
Lemma mget_nodup' (A : Type) (m : list (string * A)) k v : NoDup (mkeys m) -> In (k, v) m -> mget String.eqb m k = Some v.
Proof.
  induction m as [|[k0 v0] m IH]; simpl; [tauto|]. intros HN [H|H]; inversion HN as [|? ? Hn HN']; subst.
  - injection H as -> ->. rewrite String.eqb_refl. reflexivity.
  - destruct (String.eqb k k0) eqn:E; [|apply IH; assumption]. apply String.eqb_eq in E. subst. exfalso. apply Hn.
    apply (in_map fst) in H. exact H.
Qed.
Lemma mget_none (A : Type) (m : list (string * A)) k : mget String.eqb m k = None <-> ~ In k (mkeys m).
Proof.
  induction m as [|[k0 v0] m IH]; simpl; [split; auto|]. destruct (String.eqb k k0) eqn:E.
  - apply String.eqb_eq in E. subst. split; [discriminate|intros H; exfalso; apply H; auto].
  - apply String.eqb_neq in E. rewrite IH. intuition.
Qed.

Lemma merge_props_get l : forall m es k, NoDup (mkeys l) ->
  mget String.eqb (fst (merge_props l (m, es))) k =
  match mget String.eqb m k, mget String.eqb l k with
  | None, o => o
  | Some a, None => Some a
  | Some a, Some b => Some (fst (flatten_into a b))
  end.
Proof.
  induction l as [|[k0 v0] l IH]; intros m es k HN; simpl; [destruct (mget String.eqb m k); reflexivity|].
  inversion HN as [|? ? Hn HN']; subst.
  unfold merge_props in *. simpl.
  assert (Hl : mget String.eqb l k0 = None) by (apply mget_none; exact Hn).
  destruct (mget String.eqb m k0) as [dp|] eqn:E.
  - destruct (flatten_into dp v0) as [dp' es'] eqn:Ed. rewrite IH by exact HN'.
    destruct (String.eqb k k0) eqn:Ek.
    + apply String.eqb_eq in Ek. subst k0. rewrite mget_mset_eq, E, Hl, Ed. reflexivity.
    + apply String.eqb_neq in Ek. rewrite mget_mset_neq by exact Ek. reflexivity.
  - rewrite IH by exact HN'. destruct (String.eqb k k0) eqn:Ek.
    + apply String.eqb_eq in Ek. subst k0. rewrite mget_mset_eq, E, Hl. reflexivity.
    + apply String.eqb_neq in Ek. rewrite mget_mset_neq by exact Ek. reflexivity.
Qed.

Lemma merge_props_nodup l : forall m es, NoDup (mkeys m) -> NoDup (mkeys (fst (merge_props l (m, es)))).
Proof.
  induction l as [|[k0 v0] l IH]; intros m es H; [exact H|]. unfold merge_props in *. simpl.
  destruct (mget String.eqb m k0); [destruct (flatten_into _ v0)|]; apply IH, mset_nodup', H.
Qed.

Lemma merge_props_errs l : forall m es, snd (merge_props l (m, es)) = [] -> NoDup (mkeys l) ->
  es = [] /\ forall k a b, mget String.eqb m k = Some a -> mget String.eqb l k = Some b -> snd (flatten_into a b) = [].
Proof.
  induction l as [|[k0 v0] l IH]; intros m es H HN; [split; [exact H|discriminate]|]. unfold merge_props in *. simpl in H.
  inversion HN as [|? ? Hn HN']; subst.
  destruct (mget String.eqb m k0) as [dp|] eqn:E.
  - destruct (flatten_into dp v0) as [dp' es'] eqn:Ed. apply IH in H; [|exact HN']. destruct H as [H1 H2].
    apply app_eq_nil in H1. destruct H1 as [-> ->]. split; [reflexivity|]. intros k a b Ha. simpl.
    destruct (String.eqb k k0) eqn:Ek.
    + apply String.eqb_eq in Ek. subst k0. intros [= ->]. rewrite E in Ha. injection Ha as ->. rewrite Ed. reflexivity.
    + intros Hb. apply String.eqb_neq in Ek. apply (H2 k a b); [|exact Hb]. rewrite mget_mset_neq by exact Ek. exact Ha.
  - apply IH in H; [|exact HN']. destruct H as [H1 H2]. split; [exact H1|]. intros k a b Ha. simpl.
    destruct (String.eqb k k0) eqn:Ek.
    + apply String.eqb_eq in Ek. subst k0. congruence.
    + intros Hb. apply String.eqb_neq in Ek. apply (H2 k a b); [|exact Hb]. rewrite mget_mset_neq by exact Ek. exact Ha.
Qed.

(** Entries of the merged map. *)
Lemma merge_props_in l m es k c : NoDup (mkeys l) -> NoDup (mkeys m) ->
  In (k, c) (fst (merge_props l (m, es))) ->
  (In (k, c) m) \/ (In (k, c) l) \/ (exists a b, In (k, a) m /\ In (k, b) l /\ c = fst (flatten_into a b)).
Proof.
  intros H1 H2 Hin. apply mget_nodup' in Hin; [|apply merge_props_nodup; exact H2]. rewrite merge_props_get in Hin by exact H1.
  destruct (mget String.eqb m k) as [a|] eqn:Ea; destruct (mget String.eqb l k) as [b|] eqn:Eb.
  - right; right. exists a, b. injection Hin as <-. repeat split; apply mget_in'; assumption.
  - left. injection Hin as <-. apply mget_in'; assumption.
  - right; left. injection Hin as <-. apply mget_in'; assumption.
  - discriminate.
Qed.

(** ** Remainders *)
Lemma keep_ptr_cases {A} (d s : option A) :
  (clash_ptr d s = false /\ (keep_ptr d s = d \/ keep_ptr d s = s) /\ drem_ptr d s = None /\ srem_ptr d s = None) \/
  (clash_ptr d s = true /\ keep_ptr d s = None /\ drem_ptr d s = d /\ srem_ptr d s = s).
Proof. unfold clash_ptr, keep_ptr, drem_ptr, srem_ptr, clash_ptr. destruct d, s; simpl; auto 6. Qed.
Lemma keep_slice_cases {A} (d s : list A) :
  (clash_slice d s = false /\ (keep_slice d s = d \/ keep_slice d s = s) /\ drem_slice d s = [] /\ srem_slice d s = []) \/
  (clash_slice d s = true /\ keep_slice d s = [] /\ drem_slice d s = d /\ srem_slice d s = s).
Proof. unfold keep_slice, drem_slice, srem_slice, clash_slice. destruct d, s; simpl; auto 6. Qed.

Lemma in_others_keep d s c : In c (others (merge_node d s [] None)) -> In c (others d) \/ In c (others s).
Proof.
  unfold others, merge_node. simpl.
  rewrite !in_app_iff.
  pose proof (keep_ptr_cases (s_items d) (s_items s)) as H1.
  pose proof (keep_slice_cases (s_oneOf d) (s_oneOf s)) as H2. pose proof (keep_slice_cases (s_anyOf d) (s_anyOf s)) as H3.
  pose proof (keep_ptr_cases (s_not d) (s_not s)) as H4. pose proof (keep_slice_cases (s_patprops d) (s_patprops s)) as H5.
  pose proof (keep_slice_cases (s_deps d) (s_deps s)) as H6. pose proof (keep_ptr_cases (s_addl_items d) (s_addl_items s)) as H7.
  pose proof (keep_slice_cases (s_defs d) (s_defs s)) as H8.
  intros [H|[H|[H|[H|[H|[H|[H|H]]]]]]].
  - destruct H1 as [(_ & [E|E] & _)|(_ & E & _)]; rewrite E in H; [left; left; exact H|right; left; exact H|destruct H].
  - destruct H2 as [(_ & [E|E] & _)|(_ & E & _)]; rewrite E in H; [left; do 1 right; left; exact H|right; do 1 right; left; exact H|destruct H].
  - destruct H3 as [(_ & [E|E] & _)|(_ & E & _)]; rewrite E in H; [left; do 2 right; left; exact H|right; do 2 right; left; exact H|destruct H].
  - destruct H4 as [(_ & [E|E] & _)|(_ & E & _)]; rewrite E in H; [left; do 3 right; left; exact H|right; do 3 right; left; exact H|destruct H].
  - destruct H5 as [(_ & [E|E] & _)|(_ & E & _)]; rewrite E in H; [left; do 4 right; left; exact H|right; do 4 right; left; exact H|destruct H].
  - destruct H6 as [(_ & [E|E] & _)|(_ & E & _)]; rewrite E in H; [left; do 5 right; left; exact H|right; do 5 right; left; exact H|destruct H].
  - destruct H7 as [(_ & [E|E] & _)|(_ & E & _)]; rewrite E in H; [left; do 6 right; left; exact H|right; do 6 right; left; exact H|destruct H].
  - destruct H8 as [(_ & [E|E] & _)|(_ & E & _)]; rewrite E in H; [left; do 7 right; exact H|right; do 7 right; exact H|destruct H].
Qed.

Lemma in_others_drem d s c : In c (children (dst_remainder d s)) -> In c (others d).
Proof.
  rewrite in_children. unfold dst_remainder at 1 2 3. simpl. intros [[]|[[]|[[]|H]]]. revert H. unfold others, dst_remainder. simpl.
  rewrite !in_app_iff.
  pose proof (keep_ptr_cases (s_items d) (s_items s)) as H1.
  pose proof (keep_slice_cases (s_oneOf d) (s_oneOf s)) as H2. pose proof (keep_slice_cases (s_anyOf d) (s_anyOf s)) as H3.
  pose proof (keep_ptr_cases (s_not d) (s_not s)) as H4. pose proof (keep_slice_cases (s_patprops d) (s_patprops s)) as H5.
  pose proof (keep_slice_cases (s_deps d) (s_deps s)) as H6. pose proof (keep_ptr_cases (s_addl_items d) (s_addl_items s)) as H7.
  pose proof (keep_slice_cases (s_defs d) (s_defs s)) as H8.
  intros [H|[H|[H|[H|[H|[H|[H|H]]]]]]].
  - destruct H1 as [(_ & _ & E & _)|(_ & _ & E & _)]; rewrite E in H; [destruct H|left; exact H].
  - destruct H2 as [(_ & _ & E & _)|(_ & _ & E & _)]; rewrite E in H; [destruct H|do 1 right; left; exact H].
  - destruct H3 as [(_ & _ & E & _)|(_ & _ & E & _)]; rewrite E in H; [destruct H|do 2 right; left; exact H].
  - destruct H4 as [(_ & _ & E & _)|(_ & _ & E & _)]; rewrite E in H; [destruct H|do 3 right; left; exact H].
  - destruct H5 as [(_ & _ & E & _)|(_ & _ & E & _)]; rewrite E in H; [destruct H|do 4 right; left; exact H].
  - destruct H6 as [(_ & _ & E & _)|(_ & _ & E & _)]; rewrite E in H; [destruct H|do 5 right; left; exact H].
  - destruct H7 as [(_ & _ & E & _)|(_ & _ & E & _)]; rewrite E in H; [destruct H|do 6 right; left; exact H].
  - destruct H8 as [(_ & _ & E & _)|(_ & _ & E & _)]; rewrite E in H; [destruct H|do 7 right; exact H].
Qed.

Lemma in_others_srem d s c : In c (children (src_remainder d s)) -> In c (others s).
Proof.
  rewrite in_children. unfold src_remainder at 1 2 3. simpl. intros [[]|[[]|[[]|H]]]. revert H. unfold others, src_remainder. simpl.
  rewrite !in_app_iff.
  pose proof (keep_ptr_cases (s_items d) (s_items s)) as H1.
  pose proof (keep_slice_cases (s_oneOf d) (s_oneOf s)) as H2. pose proof (keep_slice_cases (s_anyOf d) (s_anyOf s)) as H3.
  pose proof (keep_ptr_cases (s_not d) (s_not s)) as H4. pose proof (keep_slice_cases (s_patprops d) (s_patprops s)) as H5.
  pose proof (keep_slice_cases (s_deps d) (s_deps s)) as H6. pose proof (keep_ptr_cases (s_addl_items d) (s_addl_items s)) as H7.
  pose proof (keep_slice_cases (s_defs d) (s_defs s)) as H8.
  intros [H|[H|[H|[H|[H|[H|[H|H]]]]]]].
  - destruct H1 as [(_ & _ & _ & E)|(_ & _ & _ & E)]; rewrite E in H; [destruct H|left; exact H].
  - destruct H2 as [(_ & _ & _ & E)|(_ & _ & _ & E)]; rewrite E in H; [destruct H|do 1 right; left; exact H].
  - destruct H3 as [(_ & _ & _ & E)|(_ & _ & _ & E)]; rewrite E in H; [destruct H|do 2 right; left; exact H].
  - destruct H4 as [(_ & _ & _ & E)|(_ & _ & _ & E)]; rewrite E in H; [destruct H|do 3 right; left; exact H].
  - destruct H5 as [(_ & _ & _ & E)|(_ & _ & _ & E)]; rewrite E in H; [destruct H|do 4 right; left; exact H].
  - destruct H6 as [(_ & _ & _ & E)|(_ & _ & _ & E)]; rewrite E in H; [destruct H|do 5 right; left; exact H].
  - destruct H7 as [(_ & _ & _ & E)|(_ & _ & _ & E)]; rewrite E in H; [destruct H|do 6 right; left; exact H].
  - destruct H8 as [(_ & _ & _ & E)|(_ & _ & _ & E)]; rewrite E in H; [destruct H|do 7 right; exact H].
Qed.

(** Every non-merged child survives a merge: kept, or moved to a remainder. *)
Lemma others_survive d s c P A : In c (others d) \/ In c (others s) ->
  In c (others (merge_node d s P A)) \/
  (exists r, In r (s_allOf (merge_node d s P A)) /\ In c (children r)).
Proof.
  intros H.
  set (cl := kw_clash (s_kw d) (s_kw s) || struct_clash d s).
  assert (Hin : cl = true -> In (dst_remainder d s) (s_allOf (merge_node d s P A)) /\ In (src_remainder d s) (s_allOf (merge_node d s P A))).
  { intros E. unfold merge_node. fold cl. rewrite E. simpl. rewrite !in_app_iff. simpl. auto. }
  assert (Hcl : forall b, b = true -> (b = true -> struct_clash d s = true) -> cl = true).
  { intros b Hb Hs. unfold cl. rewrite (Hs Hb), orb_true_r. reflexivity. }
  assert (Hd : forall x, In x (others (dst_remainder d s)) -> In x (children (dst_remainder d s))) by (intros; apply in_children; auto).
  assert (Hs : forall x, In x (others (src_remainder d s)) -> In x (children (src_remainder d s))) by (intros; apply in_children; auto).
  assert (G : (In c (others (merge_node d s P A))) \/ (cl = true /\ (In c (others (dst_remainder d s)) \/ In c (others (src_remainder d s))))).
  2:{ destruct G as [G|[E [G|G]]]; [left; exact G|right..].
      - exists (dst_remainder d s). split; [apply Hin, E|apply Hd, G].
      - exists (src_remainder d s). split; [apply Hin, E|apply Hs, G]. }
  clear Hin Hd Hs. revert H. unfold others, merge_node, dst_remainder, src_remainder. simpl.
  rewrite !in_app_iff.
  pose proof (keep_ptr_cases (s_items d) (s_items s)) as H1.
  pose proof (keep_slice_cases (s_oneOf d) (s_oneOf s)) as H2. pose proof (keep_slice_cases (s_anyOf d) (s_anyOf s)) as H3.
  pose proof (keep_ptr_cases (s_not d) (s_not s)) as H4. pose proof (keep_slice_cases (s_patprops d) (s_patprops s)) as H5.
  pose proof (keep_slice_cases (s_deps d) (s_deps s)) as H6. pose proof (keep_ptr_cases (s_addl_items d) (s_addl_items s)) as H7.
  pose proof (keep_slice_cases (s_defs d) (s_defs s)) as H8.
  assert (Kp : forall A (d s : option A), clash_ptr d s = false -> (d = None -> keep_ptr d s = s) /\ (s = None -> keep_ptr d s = d) /\ (d = None \/ s = None)).
  { intros B [|] [|]; cbn; intros; try discriminate; auto 6. }
  assert (Ks : forall A (d s : list A), clash_slice d s = false -> (d = [] -> keep_slice d s = s) /\ (s = [] -> keep_slice d s = d) /\ (d = [] \/ s = [])).
  { intros B [|] [|]; cbn; intros; try discriminate; auto 6. }
  intros [H|H]; (destruct H as [H|[H|[H|[H|[H|[H|[H|H]]]]]]]).
  - destruct H1 as [(E & _)|(E & _ & E1 & E2)].
    + destruct (Kp _ _ _ E) as (K1 & K2 & [K3|K3]); [rewrite K3 in H; destruct H|]. left; left. rewrite (K2 K3). exact H.
    + right. split; [apply (Hcl _ E); intros E'; unfold struct_clash; rewrite E'; rewrite ?orb_true_r; reflexivity|]. left; left. rewrite E1; exact H.
  - destruct H2 as [(E & _)|(E & _ & E1 & E2)].
    + destruct (Ks _ _ _ E) as (K1 & K2 & [K3|K3]); [rewrite K3 in H; destruct H|]. left; do 1 right; left. rewrite (K2 K3). exact H.
    + right. split; [apply (Hcl _ E); intros E'; unfold struct_clash; rewrite E'; rewrite ?orb_true_r; reflexivity|]. left; do 1 right; left. rewrite E1; exact H.
  - destruct H3 as [(E & _)|(E & _ & E1 & E2)].
    + destruct (Ks _ _ _ E) as (K1 & K2 & [K3|K3]); [rewrite K3 in H; destruct H|]. left; do 2 right; left. rewrite (K2 K3). exact H.
    + right. split; [apply (Hcl _ E); intros E'; unfold struct_clash; rewrite E'; rewrite ?orb_true_r; reflexivity|]. left; do 2 right; left. rewrite E1; exact H.
  - destruct H4 as [(E & _)|(E & _ & E1 & E2)].
    + destruct (Kp _ _ _ E) as (K1 & K2 & [K3|K3]); [rewrite K3 in H; destruct H|]. left; do 3 right; left. rewrite (K2 K3). exact H.
    + right. split; [apply (Hcl _ E); intros E'; unfold struct_clash; rewrite E'; rewrite ?orb_true_r; reflexivity|]. left; do 3 right; left. rewrite E1; exact H.
  - destruct H5 as [(E & _)|(E & _ & E1 & E2)].
    + destruct (Ks _ _ _ E) as (K1 & K2 & [K3|K3]); [rewrite K3 in H; destruct H|]. left; do 4 right; left. rewrite (K2 K3). exact H.
    + right. split; [apply (Hcl _ E); intros E'; unfold struct_clash; rewrite E'; rewrite ?orb_true_r; reflexivity|]. left; do 4 right; left. rewrite E1; exact H.
  - destruct H6 as [(E & _)|(E & _ & E1 & E2)].
    + destruct (Ks _ _ _ E) as (K1 & K2 & [K3|K3]); [rewrite K3 in H; destruct H|]. left; do 5 right; left. rewrite (K2 K3). exact H.
    + right. split; [apply (Hcl _ E); intros E'; unfold struct_clash; rewrite E'; rewrite ?orb_true_r; reflexivity|]. left; do 5 right; left. rewrite E1; exact H.
  - destruct H7 as [(E & _)|(E & _ & E1 & E2)].
    + destruct (Kp _ _ _ E) as (K1 & K2 & [K3|K3]); [rewrite K3 in H; destruct H|]. left; do 6 right; left. rewrite (K2 K3). exact H.
    + right. split; [apply (Hcl _ E); intros E'; unfold struct_clash; rewrite E'; rewrite ?orb_true_r; reflexivity|]. left; do 6 right; left. rewrite E1; exact H.
  - destruct H8 as [(E & _)|(E & _ & E1 & E2)].
    + destruct (Ks _ _ _ E) as (K1 & K2 & [K3|K3]); [rewrite K3 in H; destruct H|]. left; do 7 right. rewrite (K2 K3). exact H.
    + right. split; [apply (Hcl _ E); intros E'; unfold struct_clash; rewrite E'; rewrite ?orb_true_r; reflexivity|]. left; do 7 right. rewrite E1; exact H.
  - destruct H1 as [(E & _)|(E & _ & E1 & E2)].
    + destruct (Kp _ _ _ E) as (K1 & K2 & [K3|K3]); [|rewrite K3 in H; destruct H]. left; left. rewrite (K1 K3). exact H.
    + right. split; [apply (Hcl _ E); intros E'; unfold struct_clash; rewrite E'; rewrite ?orb_true_r; reflexivity|]. right; left. rewrite E2; exact H.
  - destruct H2 as [(E & _)|(E & _ & E1 & E2)].
    + destruct (Ks _ _ _ E) as (K1 & K2 & [K3|K3]); [|rewrite K3 in H; destruct H]. left; do 1 right; left. rewrite (K1 K3). exact H.
    + right. split; [apply (Hcl _ E); intros E'; unfold struct_clash; rewrite E'; rewrite ?orb_true_r; reflexivity|]. right; do 1 right; left. rewrite E2; exact H.
  - destruct H3 as [(E & _)|(E & _ & E1 & E2)].
    + destruct (Ks _ _ _ E) as (K1 & K2 & [K3|K3]); [|rewrite K3 in H; destruct H]. left; do 2 right; left. rewrite (K1 K3). exact H.
    + right. split; [apply (Hcl _ E); intros E'; unfold struct_clash; rewrite E'; rewrite ?orb_true_r; reflexivity|]. right; do 2 right; left. rewrite E2; exact H.
  - destruct H4 as [(E & _)|(E & _ & E1 & E2)].
    + destruct (Kp _ _ _ E) as (K1 & K2 & [K3|K3]); [|rewrite K3 in H; destruct H]. left; do 3 right; left. rewrite (K1 K3). exact H.
    + right. split; [apply (Hcl _ E); intros E'; unfold struct_clash; rewrite E'; rewrite ?orb_true_r; reflexivity|]. right; do 3 right; left. rewrite E2; exact H.
  - destruct H5 as [(E & _)|(E & _ & E1 & E2)].
    + destruct (Ks _ _ _ E) as (K1 & K2 & [K3|K3]); [|rewrite K3 in H; destruct H]. left; do 4 right; left. rewrite (K1 K3). exact H.
    + right. split; [apply (Hcl _ E); intros E'; unfold struct_clash; rewrite E'; rewrite ?orb_true_r; reflexivity|]. right; do 4 right; left. rewrite E2; exact H.
  - destruct H6 as [(E & _)|(E & _ & E1 & E2)].
    + destruct (Ks _ _ _ E) as (K1 & K2 & [K3|K3]); [|rewrite K3 in H; destruct H]. left; do 5 right; left. rewrite (K1 K3). exact H.
    + right. split; [apply (Hcl _ E); intros E'; unfold struct_clash; rewrite E'; rewrite ?orb_true_r; reflexivity|]. right; do 5 right; left. rewrite E2; exact H.
  - destruct H7 as [(E & _)|(E & _ & E1 & E2)].
    + destruct (Kp _ _ _ E) as (K1 & K2 & [K3|K3]); [|rewrite K3 in H; destruct H]. left; do 6 right; left. rewrite (K1 K3). exact H.
    + right. split; [apply (Hcl _ E); intros E'; unfold struct_clash; rewrite E'; rewrite ?orb_true_r; reflexivity|]. right; do 6 right; left. rewrite E2; exact H.
  - destruct H8 as [(E & _)|(E & _ & E1 & E2)].
    + destruct (Ks _ _ _ E) as (K1 & K2 & [K3|K3]); [|rewrite K3 in H; destruct H]. left; do 7 right. rewrite (K1 K3). exact H.
    + right. split; [apply (Hcl _ E); intros E'; unfold struct_clash; rewrite E'; rewrite ?orb_true_r; reflexivity|]. right; do 7 right. rewrite E2; exact H.
Qed.
