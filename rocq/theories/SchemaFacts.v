(** * Structural facts about schema trees. *)

From Coq Require Import List String ZArith QArith Bool Lia Permutation Arith.Wf_nat.
From Verif Require Import GoLib GoLibFacts SchemaModel.
Import ListNotations.
Open Scope string_scope.
Open Scope list_scope.
Open Scope nat_scope.

(** Number of nodes. *)
Fixpoint ssize (s : schema) : nat :=
  let opt := fun o : option schema => match o with Some x => ssize x | None => 0 end in
  let ob := fun a : option (bool * option schema) => match a with Some (_, Some x) => ssize x | _ => 0 end in
  S (match s_items s with Some (o, l) => opt o + list_sum (map ssize l) | None => 0 end
     + list_sum (map ssize (s_allOf s)) + list_sum (map ssize (s_oneOf s)) + list_sum (map ssize (s_anyOf s))
     + opt (s_not s) + list_sum (map (fun p => ssize (snd p)) (s_props s)) + ob (s_addl s)
     + list_sum (map (fun p => ssize (snd p)) (s_patprops s))
     + list_sum (map (fun p => opt (fst (snd p))) (s_deps s)) + ob (s_addl_items s)
     + list_sum (map (fun p => ssize (snd p)) (s_defs s))).

Lemma in_list_sum (A : Type) (f : A -> nat) l x : In x l -> f x <= list_sum (map f l).
Proof. induction l as [|y l IH]; simpl; [tauto|]. intros [->|H]; [lia|]. specialize (IH H). lia. Qed.

Lemma child_smaller c s : In c (children s) -> ssize c < ssize s.
Proof.
  unfold children. rewrite !in_app_iff.
  destruct s as [k it ao oo an nt pr ad pp dp ai df]; simpl.
  intros [H|[H|[H|[H|[H|[H|[H|[H|[H|[H|H]]]]]]]]]].
  - destruct it as [[[o|] l]|]; simpl in H; [..|contradiction].
    + destruct H as [->|H]; [lia|]. apply (in_list_sum _ ssize) in H. lia.
    + apply (in_list_sum _ ssize) in H. lia.
  - apply (in_list_sum _ ssize) in H. lia.
  - apply (in_list_sum _ ssize) in H. lia.
  - apply (in_list_sum _ ssize) in H. lia.
  - destruct nt as [x|]; simpl in H; [|contradiction]. destruct H as [->|[]]. lia.
  - apply in_map_iff in H as (p & <- & H). apply (in_list_sum _ (fun p => ssize (snd p))) in H. lia.
  - destruct ad as [[b [x|]]|]; simpl in H; try contradiction. destruct H as [->|[]]. lia.
  - apply in_map_iff in H as (p & <- & H). apply (in_list_sum _ (fun p => ssize (snd p))) in H. lia.
  - apply in_flat_map in H as (p & Hp & H). destruct (fst (snd p)) as [x|] eqn:E; simpl in H; [|contradiction].
    destruct H as [->|[]]. apply (in_list_sum _ (fun p => match fst (snd p) with Some x => ssize x | None => 0 end)) in Hp.
    rewrite E in Hp. lia.
  - destruct ai as [[b [x|]]|]; simpl in H; try contradiction. destruct H as [->|[]]. lia.
  - apply in_map_iff in H as (p & <- & H). apply (in_list_sum _ (fun p => ssize (snd p))) in H. lia.
Qed.

(** Induction over the tree. *)
Lemma schema_rec_ind (P : schema -> Prop) :
  (forall s, (forall c, In c (children s) -> P c) -> P s) -> forall s, P s.
Proof.
  intros H s. induction s as [s IH] using (well_founded_induction (well_founded_ltof _ ssize)).
  apply H. intros c Hc. apply IH. unfold ltof. apply child_smaller, Hc.
Qed.

(** All nodes, parent first. *)
Fixpoint subschemas (s : schema) : list schema :=
  let opt := fun o : option schema => match o with Some x => subschemas x | None => [] end in
  let ob := fun a : option (bool * option schema) => match a with Some (_, Some x) => subschemas x | _ => [] end in
  s :: (match s_items s with Some (o, l) => opt o ++ flat_map subschemas l | None => [] end
     ++ flat_map subschemas (s_allOf s) ++ flat_map subschemas (s_oneOf s) ++ flat_map subschemas (s_anyOf s)
     ++ opt (s_not s) ++ flat_map (fun p => subschemas (snd p)) (s_props s) ++ ob (s_addl s)
     ++ flat_map (fun p => subschemas (snd p)) (s_patprops s)
     ++ flat_map (fun p => opt (fst (snd p))) (s_deps s) ++ ob (s_addl_items s)
     ++ flat_map (fun p => subschemas (snd p)) (s_defs s)).

Lemma flat_map_map' (A B C : Type) (f : A -> B) (g : B -> list C) l :
  flat_map g (map f l) = flat_map (fun x => g (f x)) l.
Proof. induction l as [|x l IH]; simpl; [reflexivity|rewrite IH; reflexivity]. Qed.

Lemma flat_map_flat_map (A B C : Type) (f : A -> list B) (g : B -> list C) l :
  flat_map g (flat_map f l) = flat_map (fun x => flat_map g (f x)) l.
Proof. induction l as [|x l IH]; simpl; [reflexivity|]. rewrite flat_map_app, IH. reflexivity. Qed.

Lemma subschemas_eq s : subschemas s = s :: flat_map subschemas (children s).
Proof.
  destruct s as [k it ao oo an nt pr ad pp dp ai df]. unfold children; simpl. f_equal.
  rewrite !flat_map_app, !flat_map_map', flat_map_flat_map. f_equal; [|f_equal; f_equal; f_equal; f_equal; [|f_equal; f_equal; [|f_equal; f_equal]]].
  - destruct it as [[[o|] l]|]; simpl; reflexivity.
  - destruct nt; simpl; [rewrite app_nil_r|]; reflexivity.
  - destruct ad as [[b [x|]]|]; simpl; [rewrite app_nil_r|..]; reflexivity.
  - apply flat_map_ext. intros [n [[x|] l]]; simpl; [rewrite app_nil_r|]; reflexivity.
  - destruct ai as [[b [x|]]|]; simpl; [rewrite app_nil_r|..]; reflexivity.
Qed.

Lemma subschemas_self s : In s (subschemas s).
Proof. rewrite subschemas_eq. left; reflexivity. Qed.

Lemma subschemas_child s c x : In c (children s) -> In x (subschemas c) -> In x (subschemas s).
Proof. intros Hc Hx. rewrite subschemas_eq. right. apply in_flat_map. eauto. Qed.

Lemma subschemas_inv s x : In x (subschemas s) -> x = s \/ exists c, In c (children s) /\ In x (subschemas c).
Proof. rewrite subschemas_eq. intros [H|H]; [left; auto|right]. apply in_flat_map in H. exact H. Qed.

(** Go maps have no repeated keys. *)
Definition node_wf (s : schema) : Prop :=
  NoDup (mkeys (s_props s)) /\ NoDup (mkeys (s_patprops s)) /\ NoDup (mkeys (s_deps s)) /\ NoDup (mkeys (s_defs s)).
Definition schema_wf (s : schema) : Prop := forall x, In x (subschemas s) -> node_wf x.

Lemma schema_wf_node s : schema_wf s -> node_wf s.
Proof. intros H. apply H, subschemas_self. Qed.
Lemma schema_wf_child s c : schema_wf s -> In c (children s) -> schema_wf c.
Proof. intros H Hc x Hx. apply H. eapply subschemas_child; eauto. Qed.
Lemma schema_wf_intro s : node_wf s -> (forall c, In c (children s) -> schema_wf c) -> schema_wf s.
Proof.
  intros H1 H2 x Hx. apply subschemas_inv in Hx as [->|(c & Hc & Hx)]; [exact H1|]. exact (H2 c Hc x Hx).
Qed.

(** Apply a function to the keywords of every node. *)
Fixpoint map_kw (f : kw -> kw) (s : schema) : schema :=
  let opt := fun o : option schema => match o with Some x => Some (map_kw f x) | None => None end in
  let ob := fun a : option (bool * option schema) =>
    match a with Some (b, Some x) => Some (b, Some (map_kw f x)) | a => a end in
  let mp := fun m : list (string * schema) => map (fun p => (fst p, map_kw f (snd p))) m in
  Sch (f (s_kw s))
    (match s_items s with Some (o, l) => Some (opt o, map (map_kw f) l) | None => None end)
    (map (map_kw f) (s_allOf s)) (map (map_kw f) (s_oneOf s)) (map (map_kw f) (s_anyOf s)) (opt (s_not s))
    (map (fun p => (fst p, map_kw f (snd p))) (s_props s)) (ob (s_addl s))
    (map (fun p => (fst p, map_kw f (snd p))) (s_patprops s))
    (map (fun p => (fst p, (opt (fst (snd p)), snd (snd p)))) (s_deps s)) (ob (s_addl_items s))
    (map (fun p => (fst p, map_kw f (snd p))) (s_defs s)).

Lemma map_kw_children f s : children (map_kw f s) = map (map_kw f) (children s).
Proof.
  destruct s as [k it ao oo an nt pr ad pp dp ai df]. unfold children; simpl.
  rewrite !map_app, !map_map. simpl. f_equal; [|f_equal; f_equal; f_equal; f_equal; [|f_equal; f_equal; [|f_equal; f_equal; [|f_equal]]]].
  - destruct it as [[[o|] l]|]; reflexivity.
  - destruct nt; reflexivity.
  - destruct ad as [[b [x|]]|]; reflexivity.
  - induction dp as [|[n [[x|] l]] dp IH]; simpl; [reflexivity|rewrite IH; reflexivity|exact IH].
  - destruct ai as [[b [x|]]|]; reflexivity.
Qed.

Lemma map_kw_subschemas f s : subschemas (map_kw f s) = map (map_kw f) (subschemas s).
Proof.
  induction s as [s IH] using schema_rec_ind. rewrite (subschemas_eq s), (subschemas_eq (map_kw f s)), map_kw_children.
  simpl. f_equal. revert IH. generalize (children s) as l.
  induction l as [|c l IHl]; simpl; intros IH; [reflexivity|].
  rewrite map_app, IH by (left; reflexivity). f_equal. apply IHl. intros x Hx. apply IH. right; exact Hx.
Qed.

Lemma map_kw_kw f s : s_kw (map_kw f s) = f (s_kw s).
Proof. destruct s; reflexivity. Qed.

Lemma map_ext_id (A : Type) (f : A -> A) l : (forall x, In x l -> f x = x) -> map f l = l.
Proof. intros H. rewrite <- (map_id l) at 2. apply map_ext_in. exact H. Qed.

(** Two edits of every node agree if they agree on the children: used for [map_kw]. *)
Lemma map_kw_id f s : (forall x, In x (subschemas s) -> f (s_kw x) = s_kw x) -> map_kw f s = s.
Proof.
  induction s as [s IH] using schema_rec_ind. intros H.
  assert (Hc : forall c, In c (children s) -> map_kw f c = c).
  { intros c Hc. apply IH; [exact Hc|]. intros x Hx. apply H. eapply subschemas_child; eauto. }
  assert (Hk := H s (subschemas_self s)). clear IH H.
  destruct s as [k it ao oo an nt pr ad pp dp ai df]; simpl in *. rewrite Hk.
  assert (HcI := fun c Hin => Hc c (in_or_app _ _ _ (or_introl Hin))).
  unfold children in Hc; simpl in Hc.
  f_equal.
  - destruct it as [[[o|] l]|]; simpl in *; [|..|reflexivity].
    + rewrite (HcI o) by (simpl; auto). rewrite (map_ext_id _ _ l); [reflexivity|]. intros x Hx. apply HcI. simpl. auto.
    + rewrite (map_ext_id _ _ l); [reflexivity|]. intros x Hx. apply HcI. simpl. auto.
  - apply map_ext_id. intros x Hx. apply Hc. rewrite !in_app_iff. tauto.
  - apply map_ext_id. intros x Hx. apply Hc. rewrite !in_app_iff. tauto.
  - apply map_ext_id. intros x Hx. apply Hc. rewrite !in_app_iff. tauto.
  - destruct nt; [|reflexivity]. rewrite Hc; [reflexivity|]. rewrite !in_app_iff. simpl. tauto.
  - apply map_ext_id. intros [n x] Hx. simpl. rewrite Hc; [reflexivity|]. rewrite !in_app_iff.
    apply (in_map snd) in Hx. simpl in Hx. tauto.
  - destruct ad as [[b [x|]]|]; try reflexivity. rewrite Hc; [reflexivity|]. rewrite !in_app_iff. simpl. tauto.
  - apply map_ext_id. intros [n x] Hx. simpl. rewrite Hc; [reflexivity|]. rewrite !in_app_iff.
    apply (in_map snd) in Hx. simpl in Hx. tauto.
  - apply map_ext_id. intros [n [[x|] l]] Hx; [|reflexivity]. simpl. rewrite Hc; [reflexivity|]. rewrite !in_app_iff.
    assert (In x (flat_map (fun d => opt_list (fst (snd d))) dp)) by (apply in_flat_map; exists (n, (Some x, l)); simpl; auto). tauto.
  - destruct ai as [[b [x|]]|]; try reflexivity. rewrite Hc; [reflexivity|]. rewrite !in_app_iff. simpl. tauto.
  - apply map_ext_id. intros [n x] Hx. simpl. rewrite Hc; [reflexivity|]. rewrite !in_app_iff.
    apply (in_map snd) in Hx. simpl in Hx. tauto.
Qed.
