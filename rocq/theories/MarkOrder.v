(** * The order in which markers are applied *)
From Coq Require Import List String ZArith QArith Bool Permutation Sorting.Sorted Lia.
From Verif Require Import GoLib GoLibFacts SchemaModel ValidSpec MarkModel MarkSpec MarkProofs.
Import ListNotations.
Open Scope nat_scope.
Open Scope string_scope.
Open Scope list_scope.

(** ** Agreement *)
Lemma agree_refl k a : agree k a a. Proof. destruct k; reflexivity. Qed.
Lemma agree_sym k a b : agree k a b -> agree k b a. Proof. destruct k; cbn; congruence. Qed.
Lemma agree_trans k a b c : agree k a b -> agree k b c -> agree k a c. Proof. destruct k; cbn; congruence. Qed.
Lemma keyword_dec (a b : keyword) : {a = b} + {a <> b}. Proof. decide equality. Qed.

Lemma full_agree a b : unchanged_but [] a b -> a = b.
Proof.
  intros (K & E). assert (KK : forall k, agree k (s_kw a) (s_kw b)) by (intros k; apply K; intros []). clear K.
  decompose [and] E; clear E. destruct a as [ka ? ? ? ? ? ? ? ? ? ? ?], b as [kb ? ? ? ? ? ? ? ? ? ? ?]; cbn in *. subst.
  assert (ka = kb) as ->; [|reflexivity].
  pose proof (KK KMaximum); pose proof (KK KMinimum); pose proof (KK KExclMax); pose proof (KK KExclMin); pose proof (KK KMultipleOf); pose proof (KK KMinProps); pose proof (KK KMaxProps);
  pose proof (KK KMaxLength); pose proof (KK KMinLength); pose proof (KK KPattern); pose proof (KK KMaxItems); pose proof (KK KMinItems); pose proof (KK KUniqueItems);
  pose proof (KK KEnum); pose proof (KK KFormat); pose proof (KK KType); pose proof (KK KPreserve); pose proof (KK KEmbedded); pose proof (KK KIntOrString); pose proof (KK KValidations);
  pose proof (KK KNullable); pose proof (KK KDefault); pose proof (KK KTitle); pose proof (KK KExample); pose proof (KK KListType); pose proof (KK KListMapKeys); pose proof (KK KMapType). clear KK.
  cbn [agree] in *. destruct ka, kb; cbn in *. subst. reflexivity.
Qed.

(** ** What a marker looks at *)
Definition same_reads (a b : schema) : Prop :=
  k_type (s_kw a) = k_type (s_kw b) /\ k_x_int_or_string (s_kw a) = k_x_int_or_string (s_kw b) /\ k_x_list_type (s_kw a) = k_x_list_type (s_kw b).
Lemma ok_reads m a b : same_reads a b -> ok m a = ok m b.
Proof.
  intros (T & I & L). apply eq_true_iff_eq. rewrite !ok_usable. destruct m; cbn [usable]; unfold typed_as; rewrite ?T, ?I, ?L; reflexivity.
Qed.
Lemma act_value m a b : agree (keyword_of m) (s_kw a) (s_kw b) -> (priority m = 10 -> k_type (s_kw a) = k_type (s_kw b)) -> agree (keyword_of m) (s_kw (act m a)) (s_kw (act m b)).
Proof.
  intros A T. destruct m; cbn [act keyword_of agree] in *; try reflexivity; cbn; try congruence.
  - unfold is_type. rewrite (T eq_refl). reflexivity.
  - destruct v; try reflexivity. exact A.
  - destruct v; try reflexivity; exact A.
Qed.
Lemma act_agree m s k : k <> keyword_of m -> agree k (s_kw s) (s_kw (act m s)).
Proof. intros N. apply (act_unchanged m s). intros [H|[]]. congruence. Qed.
Lemma act_reads m s : priority m = 10 -> same_reads s (act m s).
Proof.
  intros P. repeat split.
  - apply (act_agree m s KType). destruct m; discriminate.
  - apply (act_agree m s KIntOrString). destruct m; discriminate.
  - apply (act_agree m s KListType). destruct m; discriminate.
Qed.
Lemma priority_cases m : priority m = 9 \/ priority m = 10. Proof. destruct m; cbn; auto. Qed.

Lemma unchanged_agree s s' : (forall k, agree k (s_kw s) (s_kw s')) -> (exists ks, unchanged_but ks s s') -> unchanged_but [] s s'.
Proof. intros H (ks & _ & U). split; [intros k _; apply H|exact U]. Qed.
Lemma unchanged_trans ks ks' a b c : unchanged_but ks a b -> unchanged_but ks' b c -> unchanged_but (ks ++ ks') a c.
Proof.
  intros (H & E) (H' & E'). split.
  - intros k N. apply (agree_trans k _ (s_kw b)); [apply H|apply H']; intros I; apply N, in_or_app; auto.
  - decompose [and] E. decompose [and] E'. repeat split; congruence.
Qed.
Lemma unchanged_sym ks a b : unchanged_but ks a b -> unchanged_but ks b a.
Proof. intros (H & E). split; [intros k N; apply agree_sym, H, N|]. decompose [and] E. repeat split; congruence. Qed.

Lemma act_comm m m' s : keyword_of m <> keyword_of m' -> priority m = priority m' -> act m (act m' s) = act m' (act m s).
Proof.
  intros N P. apply full_agree, unchanged_agree.
  - intros k. destruct (keyword_dec k (keyword_of m)) as [->|N1]; [|destruct (keyword_dec k (keyword_of m')) as [->|N2]].
    + apply (agree_trans _ _ (s_kw (act m s))); [|apply act_agree; exact N]. apply act_value.
      * apply agree_sym, act_agree, N.
      * intros P10. symmetry. apply (act_reads m' s). congruence.
    + apply (agree_trans _ _ (s_kw (act m' s))); [apply agree_sym, act_agree; congruence|]. apply act_value.
      * apply act_agree. congruence.
      * intros P10. apply (act_reads m s). congruence.
    + apply (agree_trans _ _ (s_kw s)).
      * apply agree_sym, (agree_trans _ _ (s_kw (act m' s))); apply act_agree; assumption.
      * apply (agree_trans _ _ (s_kw (act m s))); apply act_agree; assumption.
  - exists (([keyword_of m'] ++ [keyword_of m]) ++ ([keyword_of m] ++ [keyword_of m'])).
    apply (unchanged_trans _ _ _ s); [apply unchanged_sym|]; (eapply unchanged_trans; apply act_unchanged).
Qed.

Lemma ok_frame m m' s : independent m m' -> priority m = priority m' -> ok m (act m' s) = ok m s.
Proof.
  intros I P. destruct (priority_cases m') as [P'|P'].
  - rewrite P' in P. destruct m; try discriminate P; destruct m'; try discriminate P'; try reflexivity.
    all: try (destruct v; reflexivity).
    + exfalso. destruct I as [I|[I|[I|(I1 & I2 & I3)]]]; try (cbn in *; congruence || contradiction). apply I3. auto.
    + apply eq_true_iff_eq. rewrite !ok_usable. reflexivity.
    + apply eq_true_iff_eq. rewrite !ok_usable. destruct v; reflexivity.
    + apply eq_true_iff_eq. rewrite !ok_usable. reflexivity.
  - symmetry. apply ok_reads, act_reads, P'.
Qed.
Lemma independent_sym m m' : independent m m' -> independent m' m.
Proof.
  intros [I|[I|[I|(I1 & I2 & I3)]]]; [left|right; left|right; right; left|right; right; right]; try congruence.
  - destruct m, m'; cbn in *; auto.
  - repeat split; [congruence|intros [A B]; apply I3; auto|intros [A B]; apply I2; auto].
Qed.

(** ** Similar schemas *)
Lemma similar_kw_refl a : similar_kw a a.
Proof. repeat split; intros; try apply agree_refl; try apply Permutation_refl. Qed.
Lemma similar_kw_trans a b c : similar_kw a b -> similar_kw b c -> similar_kw a c.
Proof.
  intros (H & V & L & E) (H' & V' & L' & E'). repeat split; try (decompose [and] E; decompose [and] E'; congruence).
  - intros k N1 N2. apply (agree_trans k _ b); auto.
  - apply (Permutation_trans V V').
  - apply (Permutation_trans L L').
Qed.
Lemma similar_kw_sym a b : similar_kw a b -> similar_kw b a.
Proof.
  intros (H & V & L & E). repeat split; try (decompose [and] E; congruence).
  - intros k N1 N2. apply agree_sym; auto.
  - apply Permutation_sym, V.
  - apply Permutation_sym, L.
Qed.
Lemma similar1_refl a : similar1 a a. Proof. split; [apply similar_kw_refl|repeat split]. Qed.
Lemma similar1_trans a b c : similar1 a b -> similar1 b c -> similar1 a c.
Proof. intros (K & E & I) (K' & E' & I'). split; [apply (similar_kw_trans _ _ _ K K')|]. unfold same_but_kw in *. decompose [and] E. decompose [and] E'. repeat split; congruence. Qed.
Lemma similar1_reads a b : similar1 a b -> same_reads a b.
Proof. intros ((K & _) & _). repeat split; [apply (K KType)|apply (K KIntOrString)|apply (K KListType)]; discriminate. Qed.

Lemma similar1_act m a b : similar1 a b -> similar1 (act m a) (act m b).
Proof.
  intros S. pose proof (act_unchanged m a) as Ua. pose proof (act_unchanged m b) as Ub.
  destruct S as ((K & V & L & E) & E2 & I).
  assert (T : k_type (s_kw a) = k_type (s_kw b)) by (apply (K KType); discriminate).
  split; [split; [|split; [|split]]|].
  - intros k N1 N2. destruct (keyword_dec k (keyword_of m)) as [->|N].
    + apply act_value; [apply K; assumption|auto].
    + apply (agree_trans _ _ (s_kw a)); [apply agree_sym, act_agree, N|]. apply (agree_trans _ _ (s_kw b)); [apply K; assumption|apply act_agree, N].
  - destruct (keyword_dec KValidations (keyword_of m)) as [Ek|N].
    + destruct m; try discriminate Ek. cbn. apply Permutation_app_tail, V.
    + rewrite <- (act_agree m a KValidations N), <- (act_agree m b KValidations N). exact V.
  - destruct (keyword_dec KListMapKeys (keyword_of m)) as [Ek|N].
    + destruct m; try discriminate Ek. cbn. apply Permutation_app_tail, L.
    + rewrite <- (act_agree m a KListMapKeys N), <- (act_agree m b KListMapKeys N). exact L.
  - destruct Ua as (_ & Ua), Ub as (_ & Ub). decompose [and] E. decompose [and] Ua. decompose [and] Ub. repeat split; congruence.
  - destruct Ua as (_ & Ua), Ub as (_ & Ub). unfold same_but_kw in *. decompose [and] E2. decompose [and] Ua. decompose [and] Ub. repeat split; congruence.
Qed.

Lemma act_comm_similar m m' s : independent m m' -> priority m = priority m' -> similar1 (act m (act m' s)) (act m' (act m s)).
Proof.
  intros [I|[<-|[I|(I & _)]]] P.
  - contradiction.
  - apply similar1_refl.
  - destruct m; try contradiction I; destruct m'; try contradiction I.
    + split; [|repeat split]. repeat split; cbn; try apply Permutation_refl; [intros k N1 N2; destruct k; reflexivity || contradiction|].
      rewrite <- !app_assoc. apply Permutation_app_head. apply perm_swap.
    + split; [|repeat split]. repeat split; cbn; try apply Permutation_refl; [intros k N1 N2; destruct k; reflexivity || contradiction|].
      rewrite <- !app_assoc. apply Permutation_app_head. apply perm_swap.
  - rewrite (act_comm m m' s I P). apply similar1_refl.
Qed.

(** ** Permuting a list of markers *)
Section Permute.
  Variable R : schema -> schema -> Prop.
  Hypothesis R_refl : forall a, R a a.
  Hypothesis R_sym : forall a b, R a b -> R b a.
  Hypothesis R_trans : forall a b c, R a b -> R b c -> R a c.
  Hypothesis R_reads : forall a b, R a b -> same_reads a b.
  Hypothesis R_act : forall m a b, R a b -> R (act m a) (act m b).
  Variable I : smarker -> smarker -> Prop.
  Hypothesis I_sym : forall m m', I m m' -> I m' m.
  Hypothesis I_indep : forall m m', I m m' -> independent m m'.
  Hypothesis I_comm : forall m m' s, I m m' -> priority m = priority m' -> R (act m (act m' s)) (act m' (act m s)).

  Definition Rr (x y : schema * list string) : Prop := R (fst x) (fst y) /\ Permutation (snd x) (snd y).
  Lemma Rr_trans x y z : Rr x y -> Rr y z -> Rr x z.
  Proof. intros [A B] [C D]. split; [apply (R_trans _ _ _ A C)|apply (Permutation_trans B D)]. Qed.

  Lemma upd_act m s : upd m s = if ok m s then act m s else s.
  Proof. unfold upd. rewrite apply_act. destruct (ok m s); reflexivity. Qed.
  Lemma R_upd m a b : R a b -> R (upd m a) (upd m b).
  Proof. intros H. rewrite !upd_act, (ok_reads m a b (R_reads a b H)). destruct (ok m b); [apply R_act|]; exact H. Qed.

  Lemma apply_all_cons n m l s : apply_all ((n, m) :: l) s =
    (fst (apply_all l (upd m s)), if ok m s then snd (apply_all l (upd m s)) else n :: snd (apply_all l (upd m s))).
  Proof. cbn [apply_all]. rewrite apply_ok_upd. destruct (apply_all l (upd m s)) as [s2 e]. destruct (ok m s); reflexivity. Qed.

  Lemma apply_all_R l : forall a b, R a b -> R (fst (apply_all l a)) (fst (apply_all l b)) /\ snd (apply_all l a) = snd (apply_all l b).
  Proof.
    induction l as [|[n m] l IH]; intros a b H; [split; [exact H|reflexivity]|].
    rewrite !apply_all_cons, (ok_reads m a b (R_reads a b H)). cbn [fst snd]. destruct (IH (upd m a) (upd m b) (R_upd m a b H)) as [H1 ->]. split; [exact H1|reflexivity].
  Qed.

  Lemma swap_two n m n' m' l s : I m m' -> priority m = priority m' -> Rr (apply_all ((n, m) :: (n', m') :: l) s) (apply_all ((n', m') :: (n, m) :: l) s).
  Proof.
    intros H P.
    assert (Pm' := eq_sym P). rewrite !apply_all_cons. cbn [fst snd].
    assert (F : ok m' (upd m s) = ok m' s) by (rewrite upd_act; destruct (ok m s); [apply ok_frame; auto|reflexivity]).
    assert (F' : ok m (upd m' s) = ok m s) by (rewrite upd_act; destruct (ok m' s); [apply ok_frame; auto|reflexivity]).
    assert (C : R (upd m' (upd m s)) (upd m (upd m' s))).
    { rewrite (upd_act m'), F, (upd_act m (upd m' s)), F', !upd_act. destruct (ok m s), (ok m' s); auto. }
    rewrite F, F'. destruct (apply_all_R l _ _ C) as [C1 C2]. split; [exact C1|]. cbn [snd]. rewrite C2.
    destruct (ok m s), (ok m' s); try apply Permutation_refl. apply perm_swap.
  Qed.

  Lemma cons_Rr n m l l' s : (forall s, Rr (apply_all l s) (apply_all l' s)) -> Rr (apply_all ((n, m) :: l) s) (apply_all ((n, m) :: l') s).
  Proof.
    intros H. rewrite !apply_all_cons. destruct (H (upd m s)) as [A B]. split; [exact A|]. cbn [snd]. destruct (ok m s); [exact B|apply perm_skip, B].
  Qed.

  Lemma move_front n m a : forall b s, (forall x, In x a -> I (snd x) m /\ priority (snd x) = priority m) ->
    Rr (apply_all (a ++ (n, m) :: b) s) (apply_all ((n, m) :: a ++ b) s).
  Proof.
    induction a as [|[n' m'] a IH]; intros b s H; cbn [app].
    - split; [apply R_refl|apply Permutation_refl].
    - apply (Rr_trans _ (apply_all ((n', m') :: (n, m) :: a ++ b) s)).
      + apply cons_Rr. intros s'. apply IH. intros x Hx. apply H. right. exact Hx.
      + destruct (H (n', m') (or_introl eq_refl)) as [Hi Hp]. cbn [snd] in *. apply swap_two; assumption.
  Qed.

  Fixpoint allpairs (l : list smarker) : Prop := match l with [] => True | x :: l' => (forall y, In y l' -> I x y) /\ allpairs l' end.
  Lemma allpairs_perm l l' : Permutation l l' -> allpairs l -> allpairs l'.
  Proof.
    induction 1 as [|x l l' P IH|x y l|l l' l'' P1 IH1 P2 IH2]; cbn; auto.
    - intros [H1 H2]. split; [|auto]. intros y Hy. apply H1. apply (Permutation_in y (Permutation_sym P) Hy).
    - intros (H1 & H2 & H3). repeat split; [|intros z Hz; apply H1; right; exact Hz|exact H3].
      intros z [<-|Hz]; [apply I_sym, H1; left; reflexivity|apply H2, Hz].
  Qed.

  Let le := fun a b : string * smarker => priority (snd a) <= priority (snd b).

  Lemma permute l1 : forall l2 s, Permutation l1 l2 -> StronglySorted le l1 -> StronglySorted le l2 -> allpairs (map snd l1) -> Rr (apply_all l1 s) (apply_all l2 s).
  Proof.
    induction l1 as [|[n m] l1 IH]; intros l2 s P S1 S2 A.
    - apply Permutation_nil in P as ->. split; [apply R_refl|apply Permutation_refl].
    - assert (Hin : In (n, m) l2) by (apply (Permutation_in _ P); left; reflexivity).
      apply in_split in Hin as (a & b & ->).
      pose proof (Permutation_cons_app_inv _ _ P) as P'.
      inversion S1 as [|x l S1' F1]; subst. rewrite Forall_forall in F1. cbn [map allpairs snd] in A. destruct A as [A1 A2].
      assert (Sab : StronglySorted le (a ++ b) /\ forall x, In x a -> le x (n, m)).
      { clear -S2. induction a as [|y a IHa]; cbn [app] in *.
        - inversion S2; subst. split; [assumption|intros x []].
        - inversion S2 as [|? ? S2' F]; subst. destruct (IHa S2') as [Sx Hx]. rewrite Forall_forall in F. split.
          + constructor; [exact Sx|]. apply Forall_forall. intros x Hin. apply F. apply in_app_or in Hin as [Hin|Hin]; apply in_or_app; [left|right; right]; exact Hin.
          + intros x [<-|Hin]; [apply F, in_elt|apply Hx, Hin]. }
      destruct Sab as [Sab Ha].
      apply (Rr_trans _ (apply_all ((n, m) :: a ++ b) s)).
      + apply cons_Rr. intros s'. apply IH; assumption.
      + assert (M : Rr (apply_all (a ++ (n, m) :: b) s) (apply_all ((n, m) :: a ++ b) s)).
        { apply move_front. intros x Hx. assert (In x l1) by (apply (Permutation_in _ (Permutation_sym P')), in_or_app; left; exact Hx). split.
          - apply I_sym, A1. apply in_map. assumption.
          - apply Nat.le_antisymm; [apply (Ha x Hx)|apply (F1 x); assumption]. }
        destruct M as [M1 M2]. split; [apply R_sym, M1|apply Permutation_sym, M2].
  Qed.
End Permute.

(** ** The whole set *)
Lemma items_all l : forall s, apply_items l s =
  match s_items s with
  | Some (Some it, more) => if is_type s "array" then (set_items s (Some (Some (fst (apply_all l it)), more)), snd (apply_all l it)) else (s, map fst l)
  | _ => (s, map fst l)
  end.
Proof.
  induction l as [|[n m] l IH]; intros s.
  - destruct s as [k [[[it|] more]|] ? ? ? ? ? ? ? ? ? ?]; cbn; try reflexivity. destruct (is_type _ _); reflexivity.
  - cbn [apply_items]. destruct (s_items s) as [[[it|] more]|] eqn:E; try (rewrite IH, E; reflexivity).
    destruct (is_type s "array") eqn:T; cbn [negb].
    + rewrite apply_all_cons, apply_ok_upd, IH. cbn [s_items set_items]. replace (is_type (set_items s _) "array") with true by (symmetry; exact T).
      cbn [fst snd]. destruct (apply_all l (upd m it)) as [it2 e]. cbn [fst snd]. destruct (ok m it); reflexivity.
    + rewrite IH, E, T. reflexivity.
Qed.

Lemma schema_markers_perm o set : is_order o -> Permutation (schema_markers o set) (schema_markers (fun x => x) set).
Proof. intros H. apply Permutation_flat_map, H. Qed.
Lemma filter_perm {A} (f : A -> bool) l l' : Permutation l l' -> Permutation (filter f l) (filter f l').
Proof. induction 1; cbn; try (destruct (f x)); try (destruct (f y)); try constructor; auto using Permutation_refl. eapply Permutation_trans; eauto. Qed.

Definition part (b : bool) (l : list (string * smarker)) : list (string * smarker) := filter (fun x => if b then has_prefix items_prefix (fst x) else negb (has_prefix items_prefix (fst x))) l.
Lemma part_markers b set : map snd (part b (schema_markers (fun x => x) set)) = markers_of set b.
Proof.
  unfold schema_markers, markers_of, part. induction set as [|[n vs] set IH]; [reflexivity|].
  cbn [flat_map fst snd]. rewrite filter_app, map_app, IH. f_equal.
  destruct b, (has_prefix items_prefix n) eqn:E; cbn [Bool.eqb]; induction vs as [|[m|] vs IHv]; cbn [flat_map app filter fst]; rewrite ?E; cbn [negb map snd]; try reflexivity; try exact IHv.
  all: try (f_equal; exact IHv).
Qed.

Lemma pairwise_allpairs I l : pairwise I l -> allpairs I l.
Proof.
  induction l as [|x l IH]; intros H; cbn; [trivial|]. split.
  - intros y Hy. apply in_split in Hy as (a & b & ->). apply (H [] a b x y eq_refl).
  - apply IH. intros a b c u v ->. apply (H (x :: a) b c u v eq_refl).
Qed.

Lemma apply_markers_eq o f set s : apply_markers o f set s =
  let r1 := apply_all (f (part false (schema_markers o set))) s in
  let r2 := apply_items (f (part true (schema_markers o set))) (fst r1) in
  (fst r2, snd r1 ++ snd r2).
Proof.
  unfold apply_markers, part. cbv zeta. destruct (apply_all _ s) as [s1 e1]. cbn [fst snd].
  destruct (apply_items _ s1) as [s2 e2]. reflexivity.
Qed.

Section Whole.
  Variable R : schema -> schema -> Prop.
  Hypothesis R_refl : forall a, R a a.
  Hypothesis R_sym : forall a b, R a b -> R b a.
  Hypothesis R_trans : forall a b c, R a b -> R b c -> R a c.
  Hypothesis R_reads : forall a b, R a b -> same_reads a b.
  Hypothesis R_items : forall a b, R a b -> s_items a = s_items b.
  Hypothesis R_act : forall m a b, R a b -> R (act m a) (act m b).
  Variable I : smarker -> smarker -> Prop.
  Hypothesis I_sym : forall m m', I m m' -> I m' m.
  Hypothesis I_indep : forall m m', I m m' -> independent m m'.
  Hypothesis I_comm : forall m m' s, I m m' -> priority m = priority m' -> R (act m (act m' s)) (act m' (act m s)).

  (** Related at the top, and related items *)
  Definition R2 (a b : schema) : Prop :=
    R (set_items a None) (set_items b None) /\
    match s_items a, s_items b with
    | None, None => True
    | Some (None, l), Some (None, l') => l = l'
    | Some (Some x, l), Some (Some y, l') => R x y /\ l = l'
    | _, _ => False
    end.
  Hypothesis R_no_items : forall a b x y, R a b -> R (set_items (set_items a x) None) (set_items (set_items b y) None).
  Hypothesis R_no_items0 : forall a b, R a b -> R (set_items a None) (set_items b None).

  Lemma whole_order o1 o2 f1 f2 set s : is_order o1 -> is_order o2 -> sorts f1 -> sorts f2 -> (forall b, pairwise I (markers_of set b)) ->
    R2 (fst (apply_markers o1 f1 set s)) (fst (apply_markers o2 f2 set s)) /\ Permutation (snd (apply_markers o1 f1 set s)) (snd (apply_markers o2 f2 set s)).
  Proof.
    intros O1 O2 F1 F2 H. rewrite !apply_markers_eq. cbv zeta. cbn [fst snd].
    assert (Pb : forall b, Permutation (f1 (part b (schema_markers o1 set))) (part b (schema_markers (fun x => x) set)) /\ Permutation (f2 (part b (schema_markers o2 set))) (part b (schema_markers (fun x => x) set))).
    { intros b. split; (eapply Permutation_trans; [apply F1 || apply F2|apply filter_perm, schema_markers_perm; assumption]). }
    assert (B : forall b s0, Rr R (apply_all (f1 (part b (schema_markers o1 set))) s0) (apply_all (f2 (part b (schema_markers o2 set))) s0)).
    { intros b s0. destruct (Pb b) as [P1 P2]. apply (permute R R_refl R_sym R_trans R_reads R_act I I_sym I_indep I_comm).
      - apply (Permutation_trans P1 (Permutation_sym P2)).
      - apply F1.
      - apply F2.
      - apply (allpairs_perm I I_sym (map snd (part b (schema_markers (fun x => x) set)))); [apply Permutation_map, Permutation_sym, P1|].
        rewrite part_markers. apply pairwise_allpairs, H. }
    destruct (B false s) as [S E]. destruct (apply_all (f1 (part false _)) s) as [s1 e1], (apply_all (f2 (part false _)) s) as [s2 e2]. cbn [fst snd] in S, E |- *.
    rewrite !items_all, <- (R_items _ _ S).
    assert (T : is_type s1 "array" = is_type s2 "array") by (unfold is_type; destruct (R_reads _ _ S) as [-> _]; reflexivity). rewrite <- T.
    assert (En : Permutation (map fst (f1 (part true (schema_markers o1 set)))) (map fst (f2 (part true (schema_markers o2 set))))).
    { apply Permutation_map. destruct (Pb true) as [P1 P2]. apply (Permutation_trans P1 (Permutation_sym P2)). }
    assert (Base : R2 s1 s2).
    { split; [apply R_no_items0, S|]. rewrite <- (R_items _ _ S). destruct (s_items s1) as [[[?|] ?]|]; auto. }
    destruct (s_items s1) as [[[it|] more]|] eqn:Ei; [destruct (is_type s1 "array")| |]; cbn [fst snd].
    2-4: split; [exact Base|apply Permutation_app; assumption].
    destruct (B true it) as [Si Es]. split; [|apply Permutation_app; assumption].
    split; [apply R_no_items, S|]. cbn [s_items set_items]. auto.
  Qed.
End Whole.

Theorem order_similar o1 o2 f1 f2 set s : is_order o1 -> is_order o2 -> sorts f1 -> sorts f2 -> order_free set ->
  similar (fst (apply_markers o1 f1 set s)) (fst (apply_markers o2 f2 set s)) /\ Permutation (snd (apply_markers o1 f1 set s)) (snd (apply_markers o2 f2 set s)).
Proof.
  intros O1 O2 F1 F2 H.
  assert (Sym : forall a b, similar1 a b -> similar1 b a).
  { intros a b (K & E & I). split; [apply similar_kw_sym, K|]. unfold same_but_kw in *. decompose [and] E. repeat split; congruence. }
  destruct (whole_order similar1 similar1_refl Sym similar1_trans similar1_reads (fun a b S => proj2 (proj2 S)) similar1_act independent independent_sym (fun _ _ h => h)
    act_comm_similar) with (o1 := o1) (o2 := o2) (f1 := f1) (f2 := f2) (set := set) (s := s) as [A B]; auto.
  - intros a b x y (K & E & I). split; [exact K|split; [exact E|reflexivity]].
  - intros a b (K & E & I). split; [exact K|split; [exact E|reflexivity]].
  - split; [|exact B]. destruct A as [(K & E & _) I]. split; [exact K|split; [exact E|exact I]].
Qed.

Theorem order_equal o1 o2 f1 f2 set s : is_order o1 -> is_order o2 -> sorts f1 -> sorts f2 -> order_exact set ->
  fst (apply_markers o1 f1 set s) = fst (apply_markers o2 f2 set s) /\ Permutation (snd (apply_markers o1 f1 set s)) (snd (apply_markers o2 f2 set s)).
Proof.
  intros O1 O2 F1 F2 H.
  destruct (whole_order eq (@eq_refl _) (@eq_sym _) (@eq_trans _)) with (I := fun m m' => independent m m' /\ (additive m m' -> m = m')) (o1 := o1) (o2 := o2) (f1 := f1) (f2 := f2) (set := set) (s := s) as [A B]; auto; try congruence.
  - intros a b ->. repeat split.
  - intros m m' [I A]. split; [apply independent_sym, I|]. intros A'. symmetry. apply A. destruct m, m'; try contradiction A'; exact A'.
  - intros m m' [I A]. exact I.
  - intros m m' s0 [[I|[->|[I|(I & _)]]] A] P; [contradiction|reflexivity|rewrite (A I); reflexivity|apply act_comm; assumption].
  - intros a b x y ->. reflexivity.
  - split; [|exact B]. destruct A as [E I].
    set (a := fst (apply_markers o1 f1 set s)) in *. set (b := fst (apply_markers o2 f2 set s)) in *.
    destruct a as [? ia ? ? ? ? ? ? ? ? ? ?], b as [? ib ? ? ? ? ? ? ? ? ? ?]; cbn in E, I. injection E; intros; subst. f_equal.
    destruct ia as [[[?|] ?]|], ib as [[[?|] ?]|]; try contradiction I; try destruct I; subst; reflexivity.
Qed.

(** ** Nothing is dropped *)
Lemma carries_persist m m' s : keyword_of m <> keyword_of m' \/ additive m m' -> priority m <= priority m' -> carries m (s_kw s) -> carries m (s_kw (upd m' s)).
Proof.
  intros K P C. rewrite upd_act. destruct (ok m' s); [|exact C]. destruct K as [K|K].
  - pose proof (act_agree m' s (keyword_of m) K) as A. destruct m; cbn [carries keyword_of agree] in *; try (rewrite <- A; exact C).
    assert (T : k_type (s_kw s) = k_type (s_kw (act m' s))) by (apply (act_agree m' s KType); destruct m'; try discriminate; cbn in P; lia).
    rewrite <- A, <- T. exact C.
  - destruct m; try contradiction K; destruct m'; try contradiction K; cbn; apply in_or_app; left; exact C.
Qed.
Lemma apply_all_carries l : forall s n m, StronglySorted (fun a b => priority (snd a) <= priority (snd b)) l ->
  allpairs (fun m m' => keyword_of m <> keyword_of m' \/ additive m m') (map snd l) -> In (n, m) l ->
  In n (snd (apply_all l s)) \/ carries m (s_kw (fst (apply_all l s))).
Proof.
  assert (Keep : forall q s m, (forall x, In x q -> (keyword_of m <> keyword_of (snd x) \/ additive m (snd x)) /\ priority m <= priority (snd x)) ->
    carries m (s_kw s) -> carries m (s_kw (fst (apply_all q s)))).
  { induction q as [|[n' m'] q IH]; intros s m H C; [exact C|]. rewrite apply_all_cons. cbn [fst]. apply IH.
    - intros x Hx. apply H. right. exact Hx.
    - destruct (H (n', m') (or_introl eq_refl)). apply carries_persist; assumption. }
  induction l as [|[n' m'] l IH]; intros s n m S A Hin; [destruct Hin|].
  rewrite apply_all_cons. cbn [fst snd]. inversion S as [|? ? S' F]; subst. rewrite Forall_forall in F. cbn [map allpairs snd] in A. destruct A as [A1 A2].
  destruct Hin as [[= -> ->]|Hin].
  - destruct (ok m s) eqn:E; [|left; left; reflexivity]. right. apply Keep.
    + intros x Hx. split; [apply A1, in_map, Hx|apply (F x Hx)].
    + rewrite upd_act, E. apply act_carries, E.
  - destruct (IH (upd m' s) n m S' A2 Hin) as [H|H]; [left|right; exact H]. destruct (ok m' s); [exact H|right; exact H].
Qed.

Lemma one_each_sym m m' : keyword_of m <> keyword_of m' \/ additive m m' -> keyword_of m' <> keyword_of m \/ additive m' m.
Proof. intros [H|H]; [left; congruence|right; destruct m, m'; cbn in *; auto]. Qed.

Theorem no_marker_lost o f set s name vs m : is_order o -> sorts f -> one_each set -> In (name, vs) set -> In (VSchema m) vs ->
  let r := apply_markers o f set s in
  In name (snd r) \/
  (if has_prefix items_prefix name then exists it more, s_items (fst r) = Some (Some it, more) /\ carries m (s_kw it) else carries m (s_kw (fst r))).
Proof.
  intros Ho Hf H1 Hn Hv. rewrite apply_markers_eq. cbv zeta. cbn [fst snd].
  assert (Hin : forall b, has_prefix items_prefix name = b -> In (name, m) (f (part b (schema_markers o set)))).
  { intros b E. apply (Permutation_in (l := part b (schema_markers o set))); [apply Permutation_sym, Hf|]. apply filter_In. split.
    - apply (Permutation_in _ (Permutation_sym (schema_markers_perm o set Ho))). apply in_flat_map. exists (name, vs). split; [exact Hn|].
      apply in_flat_map. exists (VSchema m). split; [exact Hv|left; reflexivity].
    - cbn [fst]. rewrite E. destruct b; reflexivity. }
  assert (Pw : forall b, allpairs (fun m m' => keyword_of m <> keyword_of m' \/ additive m m') (map snd (f (part b (schema_markers o set))))).
  { intros b. apply (allpairs_perm _ one_each_sym (map snd (part b (schema_markers (fun x => x) set)))).
    - apply Permutation_map, Permutation_sym. eapply Permutation_trans; [apply Hf|]. apply filter_perm, schema_markers_perm, Ho.
    - rewrite part_markers. apply pairwise_allpairs, H1. }
  destruct (has_prefix items_prefix name) eqn:E.
  - rewrite items_all. set (s1 := fst (apply_all (f (part false (schema_markers o set))) s)) in *.
    assert (Hm : In name (map fst (f (part true (schema_markers o set))))) by (apply (in_map fst _ _ (Hin true eq_refl))).
    destruct (s_items s1) as [[[it|] more]|]; [destruct (is_type s1 "array")| |]; cbn [fst snd]; try (left; apply in_or_app; right; exact Hm).
    destruct (apply_all_carries _ it name m (proj2 (Hf _)) (Pw true) (Hin true eq_refl)) as [H|H].
    + left. apply in_or_app. right. exact H.
    + right. cbn [s_items set_items]. eauto.
  - destruct (apply_all_carries _ s name m (proj2 (Hf _)) (Pw false) (Hin false eq_refl)) as [H|H].
    + left. apply in_or_app. left. exact H.
    + right. rewrite items_all. destruct (s_items _) as [[[it|] more]|]; [destruct (is_type _ _)| |]; cbn [fst]; exact H.
Qed.

(** What was not accepted is not there: the markers never change anything but their own keywords *)
Theorem markers_frame o f set s : is_order o -> sorts f ->
  let s' := fst (apply_markers o f set s) in
  unchanged_but (map keyword_of (markers_of set false)) s (set_items s' (s_items s)) /\
  match s_items s, s_items s' with
  | Some (Some a, l), Some (Some b, l') => l = l' /\ unchanged_but (map keyword_of (markers_of set true)) a b
  | x, y => x = y
  end.
Proof.
  intros Ho Hf. rewrite apply_markers_eq. cbv zeta. cbn [fst].
  assert (Incl : forall ks ks' a b, (forall k, In k ks -> In k ks') -> unchanged_but ks a b -> unchanged_but ks' a b).
  { intros ks ks' a b Hi (U & V). split; [intros k N; apply U; auto|exact V]. }
  assert (All : forall l s0, unchanged_but (map keyword_of (map snd l)) s0 (fst (apply_all l s0))).
  { induction l as [|[n m] l IH]; intros s0; [repeat split; intros; apply agree_refl|]. rewrite apply_all_cons. cbn [fst map snd].
    apply (unchanged_trans [keyword_of m] _ _ (upd m s0)); [|apply IH]. rewrite upd_act. destruct (ok m s0); [apply act_unchanged|repeat split; intros; apply agree_refl]. }
  assert (Sub : forall b s0, unchanged_but (map keyword_of (markers_of set b)) s0 (fst (apply_all (f (part b (schema_markers o set))) s0))).
  { intros b s0. eapply Incl; [|apply All]. intros k Hk. rewrite <- part_markers. rewrite map_map in *. revert Hk. apply Permutation_in, Permutation_map.
    eapply Permutation_trans; [apply Hf|]. apply filter_perm, schema_markers_perm, Ho. }
  pose proof (Sub false s) as U1. set (s1 := fst (apply_all (f (part false (schema_markers o set))) s)) in *.
  rewrite items_all. assert (Ei : s_items s = s_items s1) by (destruct U1 as (_ & U1); tauto).
  assert (Top : forall x, unchanged_but (map keyword_of (markers_of set false)) s (set_items (set_items s1 x) (s_items s))).
  { intros x. rewrite Ei. destruct U1 as (K & U1). split; [exact K|]. cbn. decompose [and] U1. repeat split; assumption. }
  assert (Id : set_items s1 (s_items s1) = s1) by (destruct s1; reflexivity).
  destruct (s_items s1) as [[[it|] more]|] eqn:Es; [destruct (is_type s1 "array")| |]; cbn [fst]; rewrite Ei; (split; [rewrite <- Ei; try apply Top|]).
  all: try (rewrite Ei, Id; exact U1).
  - cbn [s_items set_items]. split; [reflexivity|apply Sub].
  - rewrite Es. split; [reflexivity|]. repeat split; intros; apply agree_refl.
  - rewrite Es. reflexivity.
  - rewrite Es. reflexivity.
Qed.
