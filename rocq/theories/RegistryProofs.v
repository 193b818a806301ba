(** * Proofs on the registry. *)
From Coq Require Import List String Ascii Bool Arith Lia Permutation.
From Verif Require Import GoLib GoLibFacts MapFacts RegistryModel RegistrySpec.
Import ListNotations.
Open Scope string_scope.
Open Scope list_scope.

Lemma cut_char_eq c a b : has_char c a = false -> cut_char c (a ++ String c b)%string = Some (a, b).
Proof. induction a as [|x a IH]; simpl; intros H; [rewrite Ascii.eqb_refl; reflexivity|]. apply orb_false_iff in H as [H1 H2]. rewrite H1, (IH H2). reflexivity. Qed.
Lemma cut_char_none c a : has_char c a = false -> cut_char c a = None.
Proof. induction a as [|x a IH]; simpl; intros H; [reflexivity|]. apply orb_false_iff in H as [H1 H2]. rewrite H1, (IH H2). reflexivity. Qed.
Lemma cut_char_some c s a b : cut_char c s = Some (a, b) -> s = (a ++ String c b)%string /\ has_char c a = false.
Proof.
  revert a b. induction s as [|x s IH]; simpl; [discriminate|]. intros a b. destruct (Ascii.eqb_spec x c) as [->|E].
  - intros [= <- <-]. auto.
  - destruct (cut_char c s) as [[a' b']|]; [|discriminate]. intros [= <- <-]. destruct (IH a' b' eq_refl) as [-> H]. split; [reflexivity|]. simpl. rewrite H, orb_false_r. apply Ascii.eqb_neq, E.
Qed.
Lemma cut_char_none_inv c s : cut_char c s = None -> has_char c s = false.
Proof. induction s as [|x s IH]; simpl; [reflexivity|]. destruct (Ascii.eqb x c); [discriminate|]. destruct (cut_char c s) as [[? ?]|]; [discriminate|]. auto. Qed.

Lemma split_char_last c p a : has_char c a = false -> split_char c (p ++ String c a)%string = split_char c p ++ [a].
Proof.
  intros H. induction p as [|x p IH]; simpl; [rewrite Ascii.eqb_refl, split_char_nosep by exact H; reflexivity|].
  destruct (Ascii.eqb x c); [simpl; rewrite IH; reflexivity|]. rewrite IH. destruct (split_char c p) eqn:E; [destruct p; simpl in E; [discriminate|destruct (Ascii.eqb a0 c); [discriminate|destruct (split_char c p); discriminate]]|]. reflexivity.
Qed.
Lemma split_char_join c s : join (String c "") (split_char c s) = s.
Proof.
  induction s as [|x s IH]; [reflexivity|]. simpl. destruct (Ascii.eqb_spec x c) as [->|E].
  - destruct (split_char c s) as [|y l] eqn:F; [destruct s; simpl in F; [discriminate|destruct (Ascii.eqb a c); [discriminate|destruct (split_char c s); discriminate]]|].
    change (join (String c "") ("" :: y :: l)) with ("" ++ String c "" ++ join (String c "") (y :: l))%string. rewrite IH. reflexivity.
  - destruct (split_char c s) as [|y l] eqn:F; [destruct s; simpl in F; [discriminate|destruct (Ascii.eqb a c); [discriminate|destruct (split_char c s); discriminate]]|].
    destruct l; simpl in *; rewrite <- IH; reflexivity.
Qed.
Lemma split_char_nonempty c s : split_char c s <> [].
Proof. destruct s as [|a s]; simpl; [discriminate|]. destruct (Ascii.eqb a c); [discriminate|]. destruct (split_char c s); discriminate. Qed.
Lemma last_colon c s : has_char c s = true -> exists p a, s = (p ++ String c a)%string /\ has_char c a = false.
Proof.
  induction s as [|x s IH]; simpl; [discriminate|]. destruct (has_char c s) eqn:E.
  - intros _. destruct (IH eq_refl) as (p & a & -> & H). exists (String x p), a. auto.
  - rewrite orb_false_r. intros H. apply Ascii.eqb_eq in H as ->. exists "", s. auto.
Qed.

Lemma split_plain c n : has_char "=" n = false -> split_marker (String c n) = Some (n, n, "").
Proof. intros H. unfold split_marker. rewrite (cut_char_none _ _ H). reflexivity. Qed.
Lemma split_args c n rest : has_char "=" n = false -> has_char ":" n = false -> split_marker (String c (n ++ String "=" rest)) = Some (n, n, rest).
Proof. intros H1 H2. unfold split_marker. rewrite (cut_char_eq _ _ _ H1), (split_char_nosep _ _ H2). reflexivity. Qed.
Lemma split_colon c p a rest : has_char "=" p = false -> has_char "=" a = false -> has_char ":" a = false ->
  split_marker (String c ((p ++ String ":" a) ++ String "=" rest)) = Some (p, (p ++ String ":" a)%string, rest).
Proof.
  intros H1 H2 H3. unfold split_marker. rewrite cut_char_eq by (rewrite has_char_app; simpl; rewrite H1, H2; reflexivity). rewrite (split_char_last _ _ _ H3).
  pose proof (split_char_nonempty ":" p). rewrite app_length. simpl List.length. replace (Nat.ltb 1 _) with true by (symmetry; apply Nat.ltb_lt; destruct (split_char ":" p); [congruence|simpl; lia]).
  rewrite removelast_last, split_char_join. reflexivity.
Qed.

Section Reg.
  Variable A : Type.
  Implicit Types ds : list (def A).
  Definition table (r : registry A) (t : target) : defs A := match t with DescribesPackage => for_pkg A r | DescribesType => for_type A r | DescribesField => for_field A r end.
  Lemma register_table r d t n : mget String.eqb (table (register A r d) t) n =
    if (match t, d_target d with DescribesPackage, DescribesPackage | DescribesType, DescribesType | DescribesField, DescribesField => true | _, _ => false end) && String.eqb n (d_name d) then Some d else mget String.eqb (table r t) n.
  Proof.
    unfold register. destruct (String.eqb_spec n (d_name d)) as [->|E].
    - destruct t, (d_target d); simpl; try reflexivity; apply (mget_mset_eq _ _ _ String.eqb_eq).
    - rewrite andb_false_r. destruct t, (d_target d); simpl; try reflexivity; apply (mget_mset_ne _ _ _ String.eqb_eq); exact E.
  Qed.
  Lemma table_spec ds t n : match mget String.eqb (table (register_all A ds) t) n with Some d => registered_as ds t n d | None => unregistered ds t n end.
  Proof.
    unfold register_all. induction ds as [|d ds IH] using rev_ind; [destruct t; intros d []|]. rewrite fold_left_app. cbn [fold_left]. rewrite register_table.
    destruct (match t, d_target d with DescribesPackage, DescribesPackage | DescribesType, DescribesType | DescribesField, DescribesField => true | _, _ => false end && String.eqb n (d_name d)) eqn:E.
    - apply andb_true_iff in E as [E1 E2]. apply String.eqb_eq in E2. exists ds, []. split; [reflexivity|]. split; [destruct t, (d_target d); congruence|]. split; [auto|intros ? []].
    - assert (Hd : ~ (d_target d = t /\ d_name d = n)).
      { intros [H1 H2]. subst t n. rewrite String.eqb_refl, andb_true_r in E. destruct (d_target d); discriminate. }
      destruct (mget String.eqb (table (fold_left (register A) ds (empty A)) t) n) as [d'|].
      + destruct IH as (l1 & l2 & -> & H1 & H2 & H3). exists l1, (l2 ++ [d]). split; [rewrite <- app_assoc; reflexivity|]. split; [exact H1|]. split; [exact H2|].
        intros x Hx. apply in_app_or in Hx as [Hx|[<-|[]]]; auto.
      + intros x Hx. apply in_app_or in Hx as [Hx|[<-|[]]]; auto.
  Qed.
  Lemma registered_unique ds t n d d' : registered_as ds t n d -> registered_as ds t n d' -> d = d'.
  Proof.
    intros (l1 & l2 & -> & H1 & H2 & H3) (k1 & k2 & E & G1 & G2 & G3).
    assert (Hcase : (exists m, k1 = l1 ++ d :: m /\ l2 = m ++ d' :: k2) \/ (d = d') \/ (exists m, l1 = k1 ++ d' :: m /\ k2 = m ++ d :: l2)).
    { clear -E. revert k1 E. induction l1 as [|x l1 IH]; intros [|y k1] E; simpl in E.
      - injection E as -> _. auto.
      - injection E as <- E. left. exists k1. auto.
      - injection E as <- <-. right. right. exists l1. auto.
      - injection E as -> E. destruct (IH k1 E) as [(m & -> & ->)|[->|(m & -> & ->)]]; [left; exists m; auto|auto|right; right; exists m; auto]. }
    destruct Hcase as [(m & -> & ->)|[->|(m & -> & ->)]]; [|reflexivity|]; exfalso.
    - apply (H3 d'); [apply in_elt|auto].
    - apply (G3 d); [apply in_elt|auto].
  Qed.
  Lemma table_iff ds t n d : mget String.eqb (table (register_all A ds) t) n = Some d <-> registered_as ds t n d.
  Proof.
    pose proof (table_spec ds t n) as H. destruct (mget String.eqb (table (register_all A ds) t) n) as [d'|].
    - split; [intros [= <-]; exact H|]. intros G. f_equal. exact (registered_unique _ _ _ _ _ H G).
    - split; [discriminate|]. intros (l1 & l2 & -> & H1 & H2 & _). exfalso. apply (H d); [apply in_elt|auto].
  Qed.
  Lemma table_none ds t n : mget String.eqb (table (register_all A ds) t) n = None <-> unregistered ds t n.
  Proof.
    pose proof (table_spec ds t n) as H. destruct (mget String.eqb (table (register_all A ds) t) n) as [d'|]; [|tauto].
    split; [discriminate|]. intros G. destruct H as (l1 & l2 & -> & H1 & H2 & _). exfalso. apply (G d'); [apply in_elt|auto].
  Qed.
  Lemma lookup_table r raw t : lookup A r raw t = try_anon_lookup A raw (table r t).
  Proof. reflexivity. Qed.
  Lemma lookup_plain ds t c n d : has_char "=" n = false -> (lookup A (register_all A ds) (String c n) t = Some d <-> registered_as ds t n d).
  Proof. intros H. rewrite lookup_table. unfold try_anon_lookup. rewrite (split_plain c n H). rewrite <- table_iff. destruct (mget String.eqb (table (register_all A ds) t) n); tauto. Qed.
  Lemma lookup_flat ds t c n rest d : has_char "=" n = false -> has_char ":" n = false -> (lookup A (register_all A ds) (String c (n ++ String "=" rest)) t = Some d <-> registered_as ds t n d).
  Proof. intros H1 H2. rewrite lookup_table. unfold try_anon_lookup. rewrite (split_args c n rest H1 H2). rewrite <- table_iff. destruct (mget String.eqb (table (register_all A ds) t) n); tauto. Qed.
  Lemma lookup_colon ds t c p a rest d : has_char "=" p = false -> has_char "=" a = false -> has_char ":" a = false ->
    (lookup A (register_all A ds) (String c ((p ++ String ":" a) ++ String "=" rest)) t = Some d <->
     registered_as ds t (p ++ String ":" a)%string d \/ (unregistered ds t (p ++ String ":" a)%string /\ registered_as ds t p d)).
  Proof.
    intros H1 H2 H3. rewrite lookup_table. unfold try_anon_lookup. rewrite (split_colon c p a rest H1 H2 H3). rewrite <- !table_iff, <- table_none.
    destruct (mget String.eqb (table (register_all A ds) t) (p ++ String ":" a)%string) as [d'|]; [|intuition discriminate]. split; [auto|intros [E|[E _]]; [exact E|discriminate]].
  Qed.

  Lemma lookup_in ds text t d : lookup A (register_all A ds) text t = Some d -> In d ds /\ d_target d = t.
  Proof.
    rewrite lookup_table. unfold try_anon_lookup. destruct (split_marker text) as [[[name anon] rest]|]; [|discriminate].
    assert (M : forall k e, mget String.eqb (table (register_all A ds) t) k = Some e -> In e ds /\ d_target e = t) by (intros k e H; apply table_iff in H as (l1 & l2 & -> & Ht & _); split; [apply in_elt|exact Ht]).
    destruct (mget String.eqb (table (register_all A ds) t) anon) as [e|] eqn:E; [intros [= <-]; exact (M _ _ E)|intros H; exact (M _ _ H)].
  Qed.

  Definition key (d : def A) : target * string := (d_target d, d_name d).
  Lemma registered_perm ds ds' t n d : NoDup (map key ds) -> Permutation ds ds' -> registered_as ds t n d -> registered_as ds' t n d.
  Proof.
    intros N P (l1 & l2 & -> & H1 & H2 & _). assert (Hin : In d ds') by (exact (Permutation_in _ P (in_elt d l1 l2))).
    apply in_split in Hin as (k1 & k2 & ->). exists k1, k2. split; [reflexivity|]. split; [exact H1|]. split; [exact H2|]. intros d' Hd [G1 G2].
    assert (N' : NoDup (map key (k1 ++ d :: k2))) by (eapply Permutation_NoDup; [apply Permutation_map; exact P|exact N]).
    rewrite map_app in N'. simpl in N'. apply NoDup_remove_2 in N'. apply N'. apply in_or_app. right. apply in_map_iff. exists d'. split; [|exact Hd]. unfold key. congruence.
  Qed.
  Lemma lookup_perm ds ds' raw t : NoDup (map key ds) -> Permutation ds ds' -> lookup A (register_all A ds) raw t = lookup A (register_all A ds') raw t.
  Proof.
    intros N P. rewrite !lookup_table. unfold try_anon_lookup. destruct (split_marker raw) as [[[name anon] rest]|]; [|reflexivity].
    assert (N' : NoDup (map key ds')) by (eapply Permutation_NoDup; [apply Permutation_map; exact P|exact N]).
    assert (E : forall n, mget String.eqb (table (register_all A ds) t) n = mget String.eqb (table (register_all A ds') t) n).
    { intros n. destruct (mget String.eqb (table (register_all A ds) t) n) as [d|] eqn:E1.
      - symmetry. apply table_iff. apply table_iff in E1. exact (registered_perm _ _ _ _ _ N P E1).
      - destruct (mget String.eqb (table (register_all A ds') t) n) as [d|] eqn:E2; [|reflexivity]. apply table_iff in E2. apply (registered_perm _ _ _ _ _ N' (Permutation_sym P)) in E2. apply table_iff in E2. congruence. }
    rewrite !E. reflexivity.
  Qed.
End Reg.

Lemma arg_text_colon c p a rest : has_char "=" p = false -> has_char "=" a = false -> has_char ":" a = false ->
  argument_text true (String c ((p ++ String ":" a) ++ String "=" rest)) = Some (a ++ "=" ++ rest)%string.
Proof.
  intros H1 H2 H3. unfold argument_text. rewrite (split_colon c p a rest H1 H2 H3). simpl andb. rewrite str_length_app. simpl String.length.
  replace (Nat.leb _ _) with true by (symmetry; apply Nat.leb_le; lia).
  replace (p ++ String ":" a)%string with ((p ++ String ":" "") ++ a)%string by (rewrite str_app_assoc; reflexivity).
  replace (String.length p + 1) with (String.length (p ++ String ":" "")%string) by (rewrite str_length_app; reflexivity). rewrite str_drop_app. reflexivity.
Qed.
Lemma arg_text_anon c n rest : has_char "=" n = false -> argument_text false (String c (n ++ String "=" rest)) = Some rest.
Proof. intros H. unfold argument_text, split_marker. rewrite (cut_char_eq _ _ _ H). reflexivity. Qed.
Lemma arg_text_plain c n b : has_char "=" n = false -> argument_text b (String c n) = Some "".
Proof. intros H. unfold argument_text. rewrite (split_plain c n H). replace (Nat.leb _ _) with false by (symmetry; apply Nat.leb_gt; lia). rewrite andb_false_r. reflexivity. Qed.
