(** * Facts about schema walking. *)

From Coq Require Import List String Bool Lia Permutation.
From Verif Require Import GoLib GoLibFacts SchemaModel SchemaFacts WalkModel WalkSpec.
Import ListNotations.
Open Scope string_scope.
Open Scope list_scope.

(** Apply a function to every direct child. *)
Definition map_children (g : schema -> schema) (s : schema) : schema :=
  Sch (s_kw s)
    (match s_items s with Some (o, l) => Some (option_map g o, map g l) | None => None end)
    (map g (s_allOf s)) (map g (s_oneOf s)) (map g (s_anyOf s)) (option_map g (s_not s))
    (map (fun p => (fst p, g (snd p))) (s_props s))
    (match s_addl s with Some (b, o) => Some (b, option_map g o) | None => None end)
    (map (fun p => (fst p, g (snd p))) (s_patprops s))
    (map (fun p => (fst p, (option_map g (fst (snd p)), snd (snd p)))) (s_deps s))
    (match s_addl_items s with Some (b, o) => Some (b, option_map g o) | None => None end)
    (map (fun p => (fst p, g (snd p))) (s_defs s)).

Lemma map_kw_map_children f s : map_kw f s = with_kw (map_children (map_kw f) s) (f (s_kw s)).
Proof.
  destruct s as [k it ao oo an nt pr ad pp dp ai df]; unfold map_children, with_kw; simpl. f_equal.
  - destruct ad as [[b [x|]]|]; reflexivity.
  - destruct ai as [[b [x|]]|]; reflexivity.
Qed.

Lemma map_children_ext f g s : (forall c, In c (children s) -> f c = g c) -> map_children f s = map_children g s.
Proof.
  intros H. destruct s as [k it ao oo an nt pr ad pp dp ai df]; unfold map_children, children in *; simpl in *.
  assert (Hin : forall c, In c (items_list it) \/ In c ao \/ In c oo \/ In c an \/ In c (opt_list nt) \/ In c (map snd pr) \/
     In c (orbool_list ad) \/ In c (map snd pp) \/ In c (flat_map (fun d => opt_list (fst (snd d))) dp) \/
     In c (orbool_list ai) \/ In c (map snd df) -> f c = g c).
  { intros c Hc. apply H. rewrite !in_app_iff. exact Hc. }
  clear H. rename Hin into H. f_equal.
  - destruct it as [[o l]|]; [|reflexivity]. simpl in H. f_equal. f_equal.
    + destruct o as [o|]; [|reflexivity]. simpl. rewrite H; [reflexivity|]. left. left. reflexivity.
    + apply map_ext_in. intros c Hc. apply H. left. rewrite in_app_iff. right; exact Hc.
  - apply map_ext_in. intros c Hc. apply H. do 1 right; left; exact Hc.
  - apply map_ext_in. intros c Hc. apply H. do 2 right; left; exact Hc.
  - apply map_ext_in. intros c Hc. apply H. do 3 right; left; exact Hc.
  - destruct nt as [x|]; [|reflexivity]. simpl. rewrite H; [reflexivity|]. do 4 right; left; left; reflexivity.
  - apply map_ext_in. intros [n c] Hc. simpl. rewrite H; [reflexivity|]. do 5 right; left. apply (in_map snd) in Hc; exact Hc.
  - destruct ad as [[b [x|]]|]; try reflexivity. simpl. rewrite H; [reflexivity|]. do 6 right; left; left; reflexivity.
  - apply map_ext_in. intros [n c] Hc. simpl. rewrite H; [reflexivity|]. do 7 right; left. apply (in_map snd) in Hc; exact Hc.
  - apply map_ext_in. intros [n [[c|] l]] Hc; [|reflexivity]. simpl. rewrite H; [reflexivity|]. do 8 right; left.
    apply in_flat_map. exists (n, (Some c, l)). split; [exact Hc|left; reflexivity].
  - destruct ai as [[b [x|]]|]; try reflexivity. simpl. rewrite H; [reflexivity|]. do 9 right; left; left; reflexivity.
  - apply map_ext_in. intros [n c] Hc. simpl. rewrite H; [reflexivity|]. do 10 right. apply (in_map snd) in Hc; exact Hc.
Qed.

Lemma map_children_id s : map_children (fun c => c) s = s.
Proof.
  destruct s as [k it ao oo an nt pr ad pp dp ai df]; unfold map_children; simpl.
  assert (Ho : forall A (o : option A), option_map (fun c => c) o = o) by (intros A [x|]; reflexivity).
  assert (Hp : forall l : list (string * schema), map (fun p => (fst p, snd p)) l = l).
  { intros l. apply map_ext_id. intros [a b] _; reflexivity. }
  rewrite !map_id, !Hp, !Ho. f_equal.
  - destruct it as [[o l]|]; [|reflexivity]. rewrite Ho, map_id. reflexivity.
  - destruct ad as [[b o]|]; [|reflexivity]. rewrite Ho. reflexivity.
  - apply map_ext_id. intros [a [o l]] _. simpl. rewrite Ho. reflexivity.
  - destruct ai as [[b o]|]; [|reflexivity]. rewrite Ho. reflexivity.
Qed.

Lemma child_order_perm s cs : child_order s cs -> Permutation cs (children s).
Proof.
  intros (p1 & p2 & p3 & p4 & H1 & H2 & H3 & H4 & ->). unfold children.
  repeat (apply Permutation_app; try assumption; try reflexivity).
Qed.

Section Chain.
  Variable St : Type.
  Variable W : schema -> St -> St -> Prop.
  Fixpoint chain (cs : list schema) (st st' : St) : Prop :=
    match cs with [] => st' = st | c :: cs' => exists st1, W c st st1 /\ chain cs' st1 st' end.
  Lemma chain_app a b st st1 st2 : chain a st st1 -> chain b st1 st2 -> chain (a ++ b) st st2.
  Proof.
    revert st; induction a as [|c a IH]; simpl; intros st H1 H2; [subst; exact H2|].
    destruct H1 as (st' & Hc & H1). exists st'. split; [exact Hc|]. eapply IH; eauto.
  Qed.
  Lemma chain_one c st st' : W c st st' -> chain [c] st st'.
  Proof. intros H. simpl. exists st'. auto. Qed.
End Chain.
Arguments chain {St}.

Section WalkChildren.
  Variable St : Type.
  Variable w : schema -> St -> option (schema * St).
  Variable g : schema -> schema.
  Variable W : schema -> St -> St -> Prop.
  Variable ord : list string -> list string.
  Hypothesis Hord : is_order ord.
  (** An invariant of the state. *)
  Variable I : St -> Prop.
  Hypothesis HI : forall c st st', I st -> W c st st' -> I st'.
  Definition walks (c : schema) : Prop := forall st, I st -> exists st', w c st = Some (g c, st') /\ W c st st'.
  Lemma chain_inv cs : forall st st', I st -> chain W cs st st' -> I st'.
  Proof.
    induction cs as [|c cs IH]; simpl; intros st st' H C; [subst; exact H|]. destruct C as (st1 & H1 & C). eapply IH; [|exact C]. eapply HI; eauto.
  Qed.

  Lemma walk_opt_spec o st : I st -> (forall c, In c (opt_list o) -> walks c) ->
    exists st', walk_opt St w o st = Some (option_map g o, st') /\ chain W (opt_list o) st st'.
  Proof.
    intros HS H. destruct o as [c|]; simpl.
    - destruct (H c (or_introl eq_refl) st HS) as (st' & E & HW). rewrite E. exists st'. split; [reflexivity|]. exists st'. auto.
    - exists st. auto.
  Qed.

  Lemma walk_list_spec l st : I st -> (forall c, In c l -> walks c) ->
    exists st', walk_list St w l st = Some (map g l, st') /\ chain W l st st'.
  Proof.
    revert st; induction l as [|c l IH]; simpl; intros st HS H; [exists st; auto|].
    destruct (H c (or_introl eq_refl) st HS) as (st1 & E & HW). rewrite E.
    destruct (IH st1) as (st2 & E2 & HC); [eapply HI; eauto|intros x Hx; apply H; right; exact Hx|]. rewrite E2.
    exists st2. split; [reflexivity|]. exists st1. auto.
  Qed.

  (** Maps: partially updated version. *)
  Lemma mget_map_val (A B : Type) (f : string -> A -> B) (m : list (string * A)) k :
    mget String.eqb (map (fun p => (fst p, f (fst p) (snd p))) m) k = option_map (f k) (mget String.eqb m k).
  Proof.
    induction m as [|[k' v] m IH]; simpl; [reflexivity|].
    destruct (String.eqb k k') eqn:E; [apply String.eqb_eq in E; subst; reflexivity|exact IH].
  Qed.

  Lemma mset_map_val (A B : Type) (f f' : string -> A -> B) (m : list (string * A)) k v :
    NoDup (mkeys m) -> mget String.eqb m k = Some v ->
    (forall k' x, k' <> k -> f' k' x = f k' x) ->
    mset String.eqb (map (fun p => (fst p, f (fst p) (snd p))) m) k (f' k v) = map (fun p => (fst p, f' (fst p) (snd p))) m.
  Proof.
    intros HN HG Hf. induction m as [|[k' v'] m IH]; simpl in *; [discriminate|].
    inversion HN as [|? ? Hni HN']; subst.
    destruct (String.eqb k k') eqn:E.
    - apply String.eqb_eq in E. subst k'. injection HG as ->. f_equal. apply map_ext_in. intros [a b] Hin. simpl.
      rewrite Hf; [reflexivity|]. intros ->. apply Hni. apply (in_map fst) in Hin. exact Hin.
    - apply String.eqb_neq in E. rewrite IH by assumption. rewrite Hf by congruence. reflexivity.
  Qed.

  Lemma mget_some_in (A : Type) (m : list (string * A)) k : In k (mkeys m) -> exists v, mget String.eqb m k = Some v /\ In (k, v) m.
  Proof.
    induction m as [|[k' v'] m IH]; simpl; [tauto|]. intros H.
    destruct (String.eqb k k') eqn:E.
    - apply String.eqb_eq in E. subst. exists v'. auto.
    - apply String.eqb_neq in E. destruct H as [H|H]; [congruence|]. destruct (IH H) as (v & H1 & H2). exists v. auto.
  Qed.

  Lemma walk_map_spec m st : I st -> NoDup (mkeys m) -> (forall c, In c (map snd m) -> walks c) ->
    exists st' p, walk_map St ord w m st = Some (map (fun p => (fst p, g (snd p))) m, st') /\
      Permutation p (map snd m) /\ chain W p st st'.
  Proof.
    intros HS HN Hw. unfold walk_map.
    set (f := fun ks k (c : schema) => if mem_str k ks then g c else c).
    assert (G : forall ks done st, I st -> NoDup (ks ++ done) -> incl ks (mkeys m) ->
      exists st' , walk_keys St w ks (map (fun p => (fst p, f done (fst p) (snd p))) m) st =
        Some (map (fun p => (fst p, f (rev ks ++ done) (fst p) (snd p))) m, st') /\
        chain W (flat_map (fun k => opt_list (mget String.eqb m k)) ks) st st').
    { clear st HS. induction ks as [|k ks IH]; simpl; intros done st HS HND Hincl; [exists st; auto|].
      inversion HND as [|? ? Hni HND']; subst.
      rewrite mget_map_val. destruct (mget_some_in _ m k) as (c & Ec & Hc); [apply Hincl; left; reflexivity|].
      rewrite Ec. simpl.
      assert (Ef : f done k c = c).
      { unfold f. replace (mem_str k done) with false; [reflexivity|]. symmetry. apply mem_str_false. intros C. apply Hni.
        rewrite in_app_iff. right; exact C. }
      rewrite Ef. destruct (Hw c (in_map snd m _ Hc) st HS) as (st1 & E1 & HW). rewrite E1.
      rewrite <- (app_assoc (rev ks) [k] done). simpl.
      destruct (IH (k :: done) st1) as (st2 & E2 & HC).
      - first [eapply HI; eassumption|eapply chain_inv; eassumption].
      - eapply Permutation_NoDup; [|exact HND]. apply Permutation_middle.
      - intros x Hx. apply Hincl. right; exact Hx.
      - replace (mset String.eqb (map (fun p => (fst p, f done (fst p) (snd p))) m) k (g c))
          with (map (fun p => (fst p, f (k :: done) (fst p) (snd p))) m).
        + rewrite E2. exists st2. split; [reflexivity|]. exists st1. auto.
        + symmetry. replace (g c) with (f (k :: done) k c).
          * apply mset_map_val; auto. intros k' x Hne. unfold f. simpl.
            destruct (String.eqb k' k) eqn:E; [apply String.eqb_eq in E; congruence|reflexivity].
          * unfold f. simpl. rewrite String.eqb_refl. reflexivity. }
    assert (HP := Hord (mkeys m)).
    destruct (G (ord (mkeys m)) [] st) as (st' & E & HC).
    - exact HS.
    - rewrite app_nil_r. eapply Permutation_NoDup; [symmetry; exact HP|exact HN].
    - intros x Hx. exact (Permutation_in _ HP Hx).
    - exists st', (flat_map (fun k => opt_list (mget String.eqb m k)) (ord (mkeys m))).
      replace (map (fun p => (fst p, f [] (fst p) (snd p))) m) with m in E.
      + rewrite E. split; [|split; [|exact HC]].
        * f_equal. f_equal. apply map_ext_in. intros [k c] Hin. simpl. unfold f.
          replace (mem_str k (rev (ord (mkeys m)) ++ [])) with true; [reflexivity|].
          symmetry. apply mem_str_spec. rewrite app_nil_r, <- in_rev.
          apply (Permutation_in _ (Permutation_sym HP)). apply (in_map fst) in Hin. exact Hin.
        * rewrite (Permutation_flat_map _ HP). apply Permutation_refl'. clear - HN. unfold mkeys in *.
          assert (Hg : forall p, In p m -> mget String.eqb m (fst p) = Some (snd p)).
          { intros [k v] Hin. apply (mget_nodup _ _ String.eqb); auto. intros a b; apply String.eqb_eq. }
          clear HN. remember m as m0 eqn:Em in Hg at 2 |- * at 1. clear Em.
          induction m as [|p m IH]; [reflexivity|]. cbn [flat_map map].
          rewrite Hg by (left; reflexivity). cbn [opt_list app]. f_equal. apply IH. intros q Hq. apply Hg. right; exact Hq.
      + symmetry. apply map_ext_id. intros [k c] _. reflexivity.
  Qed.

  Lemma walk_deps_spec m st : I st -> NoDup (mkeys m) ->
    (forall c, In c (flat_map (fun d => opt_list (fst (snd d))) m) -> walks c) ->
    exists st' p, walk_deps St ord w m st = Some (map (fun p => (fst p, (option_map g (fst (snd p)), snd (snd p)))) m, st') /\
      Permutation p (flat_map (fun d => opt_list (fst (snd d))) m) /\ chain W p st st'.
  Proof.
    intros HS HN Hw. unfold walk_deps.
    set (gd := fun d : option schema * list string => (option_map g (fst d), snd d)).
    set (f := fun ks k (c : option schema * list string) => if mem_str k ks then gd c else c).
    assert (G : forall ks done st, I st -> NoDup (ks ++ done) -> incl ks (mkeys m) ->
      exists st' , walk_dep_keys St w ks (map (fun p => (fst p, f done (fst p) (snd p))) m) st =
        Some (map (fun p => (fst p, f (rev ks ++ done) (fst p) (snd p))) m, st') /\
        chain W (flat_map (fun k => match mget String.eqb m k with Some d => opt_list (fst d) | None => [] end) ks) st st').
    { clear st HS. induction ks as [|k ks IH]; simpl; intros done st HS HND Hincl; [exists st; auto|].
      inversion HND as [|? ? Hni HND']; subst.
      rewrite mget_map_val. destruct (mget_some_in _ m k) as ([o names] & Ec & Hc); [apply Hincl; left; reflexivity|].
      rewrite Ec. simpl.
      assert (Ef : f done k (o, names) = (o, names)).
      { unfold f. replace (mem_str k done) with false; [reflexivity|]. symmetry. apply mem_str_false. intros C. apply Hni.
        rewrite in_app_iff. right; exact C. }
      rewrite Ef.
      destruct (walk_opt_spec o st HS) as (st1 & E1 & HW).
      { intros c Hcc. apply Hw. apply in_flat_map. exists (k, (o, names)). auto. }
      rewrite E1.
      rewrite <- (app_assoc (rev ks) [k] done). simpl.
      destruct (IH (k :: done) st1) as (st2 & E2 & HC).
      - first [eapply HI; eassumption|eapply chain_inv; eassumption].
      - eapply Permutation_NoDup; [|exact HND]. apply Permutation_middle.
      - intros x Hx. apply Hincl. right; exact Hx.
      - replace (mset String.eqb (map (fun p => (fst p, f done (fst p) (snd p))) m) k (option_map g o, names))
          with (map (fun p => (fst p, f (k :: done) (fst p) (snd p))) m).
        + rewrite E2. exists st2. split; [reflexivity|]. eapply chain_app; eauto.
        + symmetry. replace (option_map g o, names) with (f (k :: done) k (o, names)).
          * apply mset_map_val; auto. intros k' x Hne. unfold f. simpl.
            destruct (String.eqb k' k) eqn:E; [apply String.eqb_eq in E; congruence|reflexivity].
          * unfold f. simpl. rewrite String.eqb_refl. reflexivity. }
    assert (HP := Hord (mkeys m)).
    destruct (G (ord (mkeys m)) [] st) as (st' & E & HC).
    - exact HS.
    - rewrite app_nil_r. eapply Permutation_NoDup; [symmetry; exact HP|exact HN].
    - intros x Hx. exact (Permutation_in _ HP Hx).
    - exists st', (flat_map (fun k => match mget String.eqb m k with Some d => opt_list (fst d) | None => [] end) (ord (mkeys m))).
      replace (map (fun p => (fst p, f [] (fst p) (snd p))) m) with m in E.
      + rewrite E. split; [|split; [|exact HC]].
        * f_equal. f_equal. apply map_ext_in. intros [k c] Hin. simpl. unfold f.
          replace (mem_str k (rev (ord (mkeys m)) ++ [])) with true; [reflexivity|].
          symmetry. apply mem_str_spec. rewrite app_nil_r, <- in_rev.
          apply (Permutation_in _ (Permutation_sym HP)). apply (in_map fst) in Hin. exact Hin.
        * rewrite (Permutation_flat_map _ HP). apply Permutation_refl'. clear - HN. unfold mkeys in *.
          assert (Hg : forall p, In p m -> mget String.eqb m (fst p) = Some (snd p)).
          { intros [k v] Hin. apply (mget_nodup _ _ String.eqb); auto. intros a b; apply String.eqb_eq. }
          clear HN. remember m as m0 eqn:Em in Hg at 2 |- * at 1. clear Em.
          induction m as [|p m IH]; [reflexivity|]. cbn [flat_map map].
          rewrite Hg by (left; reflexivity). cbn [opt_list app]. f_equal. apply IH. intros q Hq. apply Hg. right; exact Hq.
      + symmetry. apply map_ext_id. intros [k [o l]] _. reflexivity.
  Qed.

  Lemma walk_orbool_spec a st : I st -> (forall c, In c (orbool_list a) -> walks c) ->
    exists st', walk_orbool St w a st = Some (match a with Some (b, o) => Some (b, option_map g o) | None => None end, st') /\
      chain W (orbool_list a) st st'.
  Proof.
    intros HS H. destruct a as [[b o]|]; simpl in *; [|exists st; auto].
    destruct (walk_opt_spec o st HS H) as (st' & E & HC). rewrite E. eauto.
  Qed.

  Lemma walk_items_spec i st : I st -> (forall c, In c (items_list i) -> walks c) ->
    exists st', walk_items St w i st = Some (match i with Some (o, l) => Some (option_map g o, map g l) | None => None end, st') /\
      chain W (items_list i) st st'.
  Proof.
    intros HS H. destruct i as [[o l]|]; simpl in *; [|exists st; auto].
    destruct (walk_opt_spec o st HS) as (st1 & E1 & HC1); [intros c Hc; apply H; rewrite in_app_iff; auto|]. rewrite E1.
    destruct (walk_list_spec l st1) as (st2 & E2 & HC2); [eapply chain_inv; eassumption|intros c Hc; apply H; rewrite in_app_iff; auto|]. rewrite E2.
    exists st2. split; [reflexivity|]. eapply chain_app; eauto.
  Qed.

  Lemma walk_children_inv s st : I st -> node_wf s -> (forall c, In c (children s) -> walks c) ->
    exists st' cs, walk_children ord w s st = Some (map_children g s, st') /\ child_order s cs /\ chain W cs st st'.
  Proof.
    intros HS (N1 & N2 & N3 & N4) H. unfold children in H.
    destruct s as [k it ao oo an nt pr ad pp dp ai df]; unfold walk_children, map_children, child_order; simpl in *.
    assert (Hin : forall c, In c (items_list it) \/ In c ao \/ In c oo \/ In c an \/ In c (opt_list nt) \/ In c (map snd pr) \/
     In c (orbool_list ad) \/ In c (map snd pp) \/ In c (flat_map (fun d => opt_list (fst (snd d))) dp) \/
     In c (orbool_list ai) \/ In c (map snd df) -> walks c).
    { intros c Hc. apply H. rewrite !in_app_iff. exact Hc. }
    clear H. rename Hin into H.
    destruct (walk_items_spec it st HS) as (st1 & E1 & C1); [intros c Hc; apply H; left; exact Hc|]. rewrite E1. pose proof (chain_inv _ _ _ HS C1) as S1.
    destruct (walk_list_spec ao st1 S1) as (st2 & E2 & C2); [intros c Hc; apply H; do 1 right; left; exact Hc|]. rewrite E2. pose proof (chain_inv _ _ _ S1 C2) as S2.
    destruct (walk_list_spec oo st2 S2) as (st3 & E3 & C3); [intros c Hc; apply H; do 2 right; left; exact Hc|]. rewrite E3. pose proof (chain_inv _ _ _ S2 C3) as S3.
    destruct (walk_list_spec an st3 S3) as (st4 & E4 & C4); [intros c Hc; apply H; do 3 right; left; exact Hc|]. rewrite E4. pose proof (chain_inv _ _ _ S3 C4) as S4.
    destruct (walk_opt_spec nt st4 S4) as (st5 & E5 & C5); [intros c Hc; apply H; do 4 right; left; exact Hc|]. rewrite E5. pose proof (chain_inv _ _ _ S4 C5) as S5.
    destruct (walk_map_spec pr st5 S5 N1) as (st6 & p1 & E6 & P1 & C6); [intros c Hc; apply H; do 5 right; left; exact Hc|]. rewrite E6. pose proof (chain_inv _ _ _ S5 C6) as S6.
    destruct (walk_orbool_spec ad st6 S6) as (st7 & E7 & C7); [intros c Hc; apply H; do 6 right; left; exact Hc|]. rewrite E7. pose proof (chain_inv _ _ _ S6 C7) as S7.
    destruct (walk_map_spec pp st7 S7 N2) as (st8 & p2 & E8 & P2 & C8); [intros c Hc; apply H; do 7 right; left; exact Hc|]. rewrite E8. pose proof (chain_inv _ _ _ S7 C8) as S8.
    destruct (walk_deps_spec dp st8 S8 N3) as (st9 & p3 & E9 & P3 & C9); [intros c Hc; apply H; do 8 right; left; exact Hc|]. rewrite E9. pose proof (chain_inv _ _ _ S8 C9) as S9.
    destruct (walk_orbool_spec ai st9 S9) as (st10 & E10 & C10); [intros c Hc; apply H; do 9 right; left; exact Hc|]. rewrite E10. pose proof (chain_inv _ _ _ S9 C10) as S10.
    destruct (walk_map_spec df st10 S10 N4) as (st11 & p4 & E11 & P4 & C11); [intros c Hc; apply H; do 10 right; exact Hc|]. rewrite E11. pose proof (chain_inv _ _ _ S10 C11) as S11.
    eexists st11, _. split; [reflexivity|]. split.
    - exists p1, p2, p3, p4. repeat (split; [eassumption|]). reflexivity.
    - repeat (eapply chain_app; [eassumption|]). exact C11.
  Qed.
End WalkChildren.

Lemma walk_children_spec St w g W ord (Hord : is_order ord) s (st : St) :
  node_wf s -> (forall c, In c (children s) -> forall st, exists st', w c st = Some (g c, st') /\ W c st st') ->
  exists st' cs, walk_children ord w s st = Some (map_children g s, st') /\ child_order s cs /\ chain W cs st st'.
Proof.
  intros N H. apply (walk_children_inv St w g W ord Hord (fun _ => True)); auto. intros c Hc st0 _. apply H, Hc.
Qed.

(** A visitor that does not change the node's reference is called once. *)
Lemma open_loop_one V St visit fuel v s opened st s1 st1 v1 :
  visit v s st = (s1, st1, Some v1) -> k_ref (s_kw s1) = k_ref (s_kw s) ->
  open_loop V St visit (S fuel) v s (match k_ref (s_kw s) with Some r => [r] | None => [] end) opened st
  = Some (s1, st1, v1 :: opened, Some v1).
Proof.
  intros Hv Hr. cbn [open_loop]. rewrite Hv, Hr.
  destruct (k_ref (s_kw s)) as [ref|]; [|reflexivity]. simpl. rewrite String.eqb_refl, orb_true_r. reflexivity.
Qed.

(** ** Read-only visitors *)
Section ReadOnly.
  Variable V St : Type.
  Variable dec : V -> schema -> St -> St * option V.
  Variable close : V -> St -> St.
  Variable ord : list string -> list string.
  Hypothesis Hord : is_order ord.

  Lemma wtraces_chain v cs st tr0 st' : 
    chain (fun c (p p' : St * list (event V)) => exists tr, wtrace V St dec close v c (fst p) tr (fst p') /\ snd p' = snd p ++ tr) cs (st, tr0) st' ->
    exists tr, wtraces V St dec close v cs st tr (fst st') /\ snd st' = tr0 ++ tr.
  Proof.
    revert st tr0; induction cs as [|c cs IH]; simpl; intros st tr0 H.
    - subst. simpl. exists []. split; [constructor|rewrite app_nil_r; reflexivity].
    - destruct H as ([st1 tr1] & (tr & Hw & Ht) & H). simpl in Hw, Ht. subst tr1.
      destruct (IH _ _ H) as (tr2 & Hw2 & Ht2). exists (tr ++ tr2). split; [econstructor; eauto|].
      rewrite Ht2, app_assoc. reflexivity.
  Qed.

  Lemma walk_read_only : forall s fuel v st tr0, schema_wf s -> ssize s <= fuel ->
    exists st' tr, walk (log_visit V St dec) (log_finish V St close) ord fuel v s (st, tr0) = Some (s, (st', tr0 ++ tr)) /\
      wtrace V St dec close v s st tr st'.
  Proof.
    induction s as [s IH] using schema_rec_ind. intros fuel v st tr0 Hwf Hf.
    destruct fuel as [|fuel]; [destruct s; simpl in Hf; lia|].
    cbn [walk].
    destruct (dec v s st) as [st1 r] eqn:Ed.
    destruct r as [v'|].
    - rewrite (open_loop_one _ _ _ fuel v s [] (st, tr0) s (st1, tr0 ++ [Enter v s]) v');
        [|unfold log_visit; simpl; rewrite Ed; reflexivity|reflexivity].
      destruct (walk_children_spec (St * list (event V)) (walk (log_visit V St dec) (log_finish V St close) ord fuel v')
        (fun c => c) (fun c p p' => exists tr, wtrace V St dec close v' c (fst p) tr (fst p') /\ snd p' = snd p ++ tr) ord Hord s
        (st1, tr0 ++ [Enter v s])) as ([st2 tr2] & cs & E & Hcs & Hch).
      + apply schema_wf_node; exact Hwf.
      + intros c Hc [stc trc].
        destruct (IH c Hc fuel v' stc trc) as (st' & tr & E & Ht).
        * eapply schema_wf_child; eauto.
        * pose proof (child_smaller _ _ Hc). lia.
        * exists (st', trc ++ tr). split; [exact E|]. exists tr. simpl. auto.
      + rewrite map_children_id in E. rewrite E. apply wtraces_chain in Hch. simpl in Hch.
        destruct Hch as (tr & Hw & ->). simpl. eexists _, _. split.
        * rewrite <- !app_assoc. reflexivity.
        * simpl. eapply wt_go; eauto.
    - cbn [open_loop]. unfold log_visit at 1. cbn [fst]. rewrite Ed. simpl. eexists _, _. split; [reflexivity|]. apply wt_stop. exact Ed.
  Qed.
End ReadOnly.

(** Consequences of the trace specification. *)
Lemma entered_app V (a b : list (event V)) : entered (a ++ b) = entered a ++ entered b.
Proof. unfold entered. apply flat_map_app. Qed.

Scheme wtrace_mut := Induction for wtrace Sort Prop
with wtraces_mut := Induction for wtraces Sort Prop.

Lemma wtrace_entered V St dec close stop : (forall v s st, snd (dec v s st) = None <-> stop s = true) ->
  forall v s st tr st', wtrace V St dec close v s st tr st' -> Permutation (entered tr) (reached stop s).
Proof.
  intros Hstop. apply (wtrace_mut V St dec close
    (fun v s st tr st' _ => Permutation (entered tr) (reached stop s))
    (fun v cs st tr st' _ => Permutation (entered tr) (flat_map (reached stop) cs))).
  - intros v s st st' E. rewrite reached_eq.
    replace (stop s) with true; [reflexivity|]. symmetry. apply (Hstop v s st). rewrite E. reflexivity.
  - intros v s st v' st1 cs tr st2 E Hcs _ IH. rewrite reached_eq.
    replace (stop s) with false.
    + change (entered (Enter v s :: tr ++ [Leave v'])) with (s :: entered (tr ++ [Leave v'])). apply perm_skip.
      rewrite entered_app. simpl. rewrite app_nil_r. rewrite IH. apply Permutation_flat_map. apply child_order_perm. exact Hcs.
    + destruct (stop s) eqn:Es; [|reflexivity]. apply (Hstop v s st) in Es. rewrite E in Es. discriminate.
  - reflexivity.
  - intros v c cs st tr1 st1 tr2 st2 _ IH1 _ IH2. simpl. rewrite entered_app. apply Permutation_app; assumption.
Qed.

Lemma reached_false s : reached (fun _ => false) s = subschemas s.
Proof.
  induction s as [s IH] using schema_rec_ind. rewrite reached_eq, subschemas_eq. f_equal.
  induction (children s) as [|c cs IHc]; [reflexivity|]. simpl. rewrite IH by (left; reflexivity). f_equal. apply IHc.
  intros x Hx. apply IH. right; exact Hx.
Qed.

(** ** Visitors that rewrite the keywords of each node *)
Section Edit.
  Variable f : kw -> kw.
  Hypothesis Hf : forall k, k_ref (f k) = k_ref k.
  Variable ord : list string -> list string.
  Hypothesis Hord : is_order ord.

  Variable visit : unit -> schema -> unit -> schema * unit * option unit.
  Hypothesis Hvisit : forall s, visit tt s tt = (with_kw s (f (s_kw s)), tt, Some tt).

  Lemma walk_edit : forall s fuel, schema_wf s -> ssize s <= fuel ->
    walk visit (fun _ s st => (s, st)) ord fuel tt s tt = Some (map_kw f s, tt).
  Proof.
    induction s as [s IH] using schema_rec_ind. intros fuel Hwf Hfu.
    destruct fuel as [|fuel]; [destruct s; simpl in Hfu; lia|].
    cbn [walk].
    rewrite (open_loop_one _ _ _ fuel tt s [] tt (with_kw s (f (s_kw s))) tt tt); [|apply Hvisit|apply Hf].
    match goal with |- match walk_children _ ?w _ _ with _ => _ end = _ =>
      destruct (walk_children_spec unit w (map_kw f) (fun _ _ _ => True) ord Hord (with_kw s (f (s_kw s))) tt) as ([] & cs & E & _ & _) end.
    - apply schema_wf_node in Hwf. exact Hwf.
    - intros c Hc []. exists tt. split; [|exact I]. apply IH; [exact Hc|eapply schema_wf_child; eauto|].
      assert (Hc' : In c (children s)) by exact Hc. pose proof (child_smaller _ _ Hc'). lia.
    - rewrite E. cbn [close_all]. f_equal. f_equal. rewrite map_kw_map_children. reflexivity.
  Qed.
End Edit.
