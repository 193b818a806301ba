(** * Facts about [GoLib]. *)

From Coq Require Import List String Ascii Bool Arith Lia NArith Permutation Sorting.Sorted.
From Coq Require Import RelationClasses.
From Verif Require Import GoLib.
Import ListNotations.
Open Scope string_scope.
Open Scope list_scope.

(** ** Bytes *)

Lemma N_of_ascii_inj a b : N_of_ascii a = N_of_ascii b -> a = b.
Proof. intros H. rewrite <- (ascii_N_embedding a), <- (ascii_N_embedding b), H. reflexivity. Qed.

Lemma byte_ltb_irrefl a : byte_ltb a a = false.
Proof. apply N.ltb_irrefl. Qed.

Lemma byte_ltb_trans a b c : byte_ltb a b = true -> byte_ltb b c = true -> byte_ltb a c = true.
Proof. unfold byte_ltb. rewrite !N.ltb_lt. lia. Qed.

Lemma byte_ltb_total a b : a <> b -> byte_ltb a b = false -> byte_ltb b a = true.
Proof.
  unfold byte_ltb. rewrite N.ltb_lt, N.ltb_ge. intros Hne Hge.
  assert (N_of_ascii a <> N_of_ascii b) by (intros E; apply Hne, N_of_ascii_inj, E). lia.
Qed.

Lemma byte_ltb_asym a b : byte_ltb a b = true -> byte_ltb b a = false.
Proof. unfold byte_ltb. rewrite N.ltb_lt, N.ltb_ge. lia. Qed.

(** ** String order *)

Lemma str_ltb_irrefl s : str_ltb s s = false.
Proof. induction s as [|a s IH]; simpl; [reflexivity|]. rewrite Ascii.eqb_refl. exact IH. Qed.

Lemma str_ltb_trans s t u : str_ltb s t = true -> str_ltb t u = true -> str_ltb s u = true.
Proof.
  revert t u; induction s as [|a s IH]; intros [|b t] [|c u]; simpl; try discriminate; auto.
  destruct (Ascii.eqb_spec a b) as [->|Hab]; destruct (Ascii.eqb_spec b c) as [->|Hbc].
  - apply IH.
  - intros _ H. exact H.
  - intros H _. destruct (Ascii.eqb_spec a c) as [->|]; [congruence|exact H].
  - intros H1 H2. destruct (Ascii.eqb_spec a c) as [->|Hac].
    + apply byte_ltb_asym in H1. congruence.
    + eapply byte_ltb_trans; eassumption.
Qed.

Lemma str_ltb_asym s t : str_ltb s t = true -> str_ltb t s = false.
Proof.
  intros H. destruct (str_ltb t s) eqn:E; [|reflexivity].
  pose proof (str_ltb_trans _ _ _ H E) as Hc. rewrite str_ltb_irrefl in Hc. discriminate.
Qed.

Lemma str_ltb_total s t : str_ltb s t = false -> str_ltb t s = false -> s = t.
Proof.
  revert t; induction s as [|a s IH]; intros [|b t]; simpl; try discriminate; auto.
  rewrite (Ascii.eqb_sym b a). destruct (Ascii.eqb_spec a b) as [->|Hab].
  - intros H1 H2. f_equal. apply IH; assumption.
  - intros H1 H2. pose proof (byte_ltb_total _ _ Hab H1). congruence.
Qed.

Lemma str_leb_refl s : str_leb s s = true.
Proof. unfold str_leb. rewrite str_ltb_irrefl. reflexivity. Qed.

Lemma str_leb_total s t : str_leb s t = true \/ str_leb t s = true.
Proof.
  unfold str_leb. destruct (str_ltb t s) eqn:E; [right|left; reflexivity].
  rewrite (str_ltb_asym _ _ E). reflexivity.
Qed.

Lemma str_leb_antisym s t : str_leb s t = true -> str_leb t s = true -> s = t.
Proof. unfold str_leb. rewrite !negb_true_iff. intros H1 H2. apply str_ltb_total; assumption. Qed.

Lemma str_leb_trans s t u : str_leb s t = true -> str_leb t u = true -> str_leb s u = true.
Proof.
  unfold str_leb. rewrite !negb_true_iff. intros H1 H2.
  destruct (str_ltb u s) eqn:E; [|reflexivity].
  destruct (str_ltb s t) eqn:Est.
  - pose proof (str_ltb_trans _ _ _ E Est). congruence.
  - pose proof (str_ltb_total _ _ Est H1). subst t. congruence.
Qed.

Lemma str_ltb_leb s t : str_ltb s t = true -> str_leb s t = true.
Proof. intros H. unfold str_leb. rewrite (str_ltb_asym _ _ H). reflexivity. Qed.

Lemma str_ltb_neq s t : str_ltb s t = true -> s <> t.
Proof. intros H ->. rewrite str_ltb_irrefl in H. discriminate. Qed.

Lemma str_leb_ltb s t : str_leb s t = true -> s <> t -> str_ltb s t = true.
Proof.
  unfold str_leb. rewrite negb_true_iff. intros H Hne.
  destruct (str_ltb s t) eqn:E; [reflexivity|]. exfalso. apply Hne, str_ltb_total; assumption.
Qed.

(** ** Sorting *)

Section SortFacts.
  Variable A : Type.
  Variable lt : A -> A -> bool.

  Lemma insert_by_perm x l : Permutation (insert_by lt x l) (x :: l).
  Proof.
    induction l as [|y l IH]; simpl; [reflexivity|].
    destruct (lt y x); [|reflexivity].
    rewrite IH. apply perm_swap.
  Qed.

  Lemma sort_by_perm l : Permutation (sort_by lt l) l.
  Proof.
    induction l as [|x l IH]; simpl; [reflexivity|].
    rewrite insert_by_perm, IH. reflexivity.
  Qed.

  Lemma sort_by_in x l : In x (sort_by lt l) <-> In x l.
  Proof.
    split; apply Permutation_in; [|symmetry]; apply sort_by_perm.
  Qed.

  Lemma sort_by_length l : List.length (sort_by lt l) = List.length l.
  Proof. apply Permutation_length, sort_by_perm. Qed.

  Definition le_of (x y : A) : Prop := lt y x = false.

  Hypothesis lt_trans : forall x y z, lt x y = true -> lt y z = true -> lt x z = true.
  Hypothesis lt_irrefl : forall x, lt x x = false.
  Hypothesis lt_negtrans : forall x y z, lt x y = false -> lt y z = false -> lt x z = false.

  Lemma insert_by_sorted x l :
    StronglySorted le_of l -> StronglySorted le_of (insert_by lt x l).
  Proof.
    induction 1 as [|y l HS IH HF]; simpl.
    - constructor; constructor.
    - destruct (lt y x) eqn:E.
      + constructor; [exact IH|].
        rewrite (insert_by_perm x l). constructor; [|exact HF].
        unfold le_of. destruct (lt x y) eqn:E2; [|reflexivity].
        pose proof (lt_trans _ _ _ E E2) as H. rewrite lt_irrefl in H. discriminate.
      + constructor; [constructor; assumption|].
        constructor; [exact E|].
        eapply Forall_impl; [|exact HF].
        intros z Hz. unfold le_of in *. eapply lt_negtrans; eassumption.
  Qed.

  Lemma sort_by_sorted l : StronglySorted le_of (sort_by lt l).
  Proof. induction l as [|x l IH]; simpl; [constructor|]. apply insert_by_sorted, IH. Qed.
End SortFacts.

Lemma strongly_sorted_unique (A : Type) (le : A -> A -> Prop)
  (antisym : forall x y, le x y -> le y x -> x = y) (l1 l2 : list A) :
  StronglySorted le l1 -> StronglySorted le l2 -> Permutation l1 l2 -> l1 = l2.
Proof.
  intros H1; revert l2; induction H1 as [|x l1 HS1 IH HF1]; intros l2 H2 HP.
  - apply Permutation_nil in HP. congruence.
  - destruct H2 as [|y l2 HS2 HF2].
    + symmetry in HP. apply Permutation_nil in HP. discriminate.
    + assert (Hxy : x = y).
      { assert (Hx : In x (y :: l2)) by (apply (Permutation_in _ HP); left; reflexivity).
        assert (Hy : In y (x :: l1)) by (apply (Permutation_in _ (Permutation_sym HP)); left; reflexivity).
        destruct Hx as [->|Hx]; [reflexivity|]. destruct Hy as [->|Hy]; [reflexivity|].
        rewrite Forall_forall in HF1, HF2. apply antisym; auto. }
      subst y. f_equal. apply IH; [exact HS2|]. eapply Permutation_cons_inv, HP.
Qed.

(** A generic uniqueness that needs antisymmetry only among the members. *)
Lemma strongly_sorted_unique_on (A : Type) (le : A -> A -> Prop) (l1 l2 : list A) :
  (forall x y, In x l1 -> In y l1 -> le x y -> le y x -> x = y) ->
  StronglySorted le l1 -> StronglySorted le l2 -> Permutation l1 l2 -> l1 = l2.
Proof.
  intros Hanti H1; revert l2; induction H1 as [|x l1 HS1 IH HF1]; intros l2 H2 HP.
  - apply Permutation_nil in HP. congruence.
  - destruct H2 as [|y l2 HS2 HF2].
    + symmetry in HP. apply Permutation_nil in HP. discriminate.
    + assert (Hxy : x = y).
      { assert (Hx : In x (y :: l2)) by (apply (Permutation_in _ HP); left; reflexivity).
        assert (Hy : In y (x :: l1)) by (apply (Permutation_in _ (Permutation_sym HP)); left; reflexivity).
        destruct Hx as [->|Hx]; [reflexivity|]. destruct Hy as [->|Hy]; [reflexivity|].
        rewrite Forall_forall in HF1, HF2. apply Hanti; auto; [left|right]; auto. }
      subst y. f_equal. apply IH; [|exact HS2|].
      * intros a b Ha Hb. apply Hanti; right; assumption.
      * eapply Permutation_cons_inv, HP.
Qed.

Definition str_le (s t : string) : Prop := str_leb s t = true.

Lemma str_ltb_negtrans x y z : str_ltb x y = false -> str_ltb y z = false -> str_ltb x z = false.
Proof.
  intros H1 H2. assert (str_leb z x = true).
  { eapply str_leb_trans with (t := y); unfold str_leb; [rewrite H2|rewrite H1]; reflexivity. }
  unfold str_leb in H. apply negb_true_iff in H. exact H.
Qed.

Lemma sort_strings_perm l : Permutation (sort_strings l) l.
Proof. apply sort_by_perm. Qed.

Lemma sort_strings_in x l : In x (sort_strings l) <-> In x l.
Proof. apply sort_by_in. Qed.

Lemma sort_strings_sorted l : StronglySorted str_le (sort_strings l).
Proof.
  pose proof (sort_by_sorted string str_ltb str_ltb_trans str_ltb_irrefl str_ltb_negtrans l) as H.
  unfold sort_strings. induction H as [|x l' HS IH HF]; constructor; [exact IH|].
  eapply Forall_impl; [|exact HF]. intros y Hy. unfold le_of in Hy.
  unfold str_le, str_leb. rewrite Hy. reflexivity.
Qed.

Lemma str_sorted_unique l1 l2 :
  StronglySorted str_le l1 -> StronglySorted str_le l2 -> Permutation l1 l2 -> l1 = l2.
Proof. apply strongly_sorted_unique. intros x y. apply str_leb_antisym. Qed.

Lemma sort_strings_perm_eq l1 l2 : Permutation l1 l2 -> sort_strings l1 = sort_strings l2.
Proof.
  intros H. apply str_sorted_unique; try apply sort_strings_sorted.
  rewrite !sort_strings_perm. exact H.
Qed.

(** ** Membership and [dedup] *)

Lemma mem_str_spec x l : mem_str x l = true <-> In x l.
Proof.
  unfold mem_str. rewrite existsb_exists. split.
  - intros (y & Hy & E). apply String.eqb_eq in E. congruence.
  - intros H. exists x. split; [exact H|apply String.eqb_refl].
Qed.

Lemma mem_str_false x l : mem_str x l = false <-> ~ In x l.
Proof. rewrite <- mem_str_spec. destruct (mem_str x l); split; congruence. Qed.

Lemma dedup_in x l : In x (dedup l) <-> In x l.
Proof.
  induction l as [|y l IH]; simpl; [reflexivity|].
  destruct (mem_str y l) eqn:E.
  - rewrite IH. split; [auto|]. intros [->|H]; [|exact H]. apply mem_str_spec, E.
  - simpl. rewrite IH. reflexivity.
Qed.

Lemma dedup_nodup l : NoDup (dedup l).
Proof.
  induction l as [|y l IH]; simpl; [constructor|].
  destruct (mem_str y l) eqn:E; [exact IH|].
  constructor; [|exact IH]. rewrite dedup_in. apply mem_str_false, E.
Qed.

(** Sorted duplicate-free lists with the same members are equal. *)
Lemma sort_dedup_ext l1 l2 :
  (forall x, In x l1 <-> In x l2) -> sort_strings (dedup l1) = sort_strings (dedup l2).
Proof.
  intros H. apply sort_strings_perm_eq. apply NoDup_Permutation; try apply dedup_nodup.
  intros x. rewrite !dedup_in. apply H.
Qed.

Lemma sorted_set_ext l1 l2 :
  StronglySorted str_le l1 -> StronglySorted str_le l2 -> NoDup l1 -> NoDup l2 ->
  (forall x, In x l1 <-> In x l2) -> l1 = l2.
Proof.
  intros. apply str_sorted_unique; auto. apply NoDup_Permutation; auto.
Qed.

(** ** Strings *)

Lemma str_app_assoc (a b c : string) : ((a ++ b) ++ c)%string = (a ++ (b ++ c))%string.
Proof. induction a as [|x a IH]; simpl; [reflexivity|]. rewrite IH. reflexivity. Qed.

Lemma str_app_nil_r (a : string) : (a ++ "")%string = a.
Proof. induction a as [|x a IH]; simpl; [reflexivity|]. rewrite IH. reflexivity. Qed.

Lemma str_length_app (a b : string) : String.length (a ++ b) = String.length a + String.length b.
Proof. induction a as [|x a IH]; simpl; [reflexivity|]. rewrite IH. reflexivity. Qed.

Lemma str_app_inv_head (a b c : string) : (a ++ b)%string = (a ++ c)%string -> b = c.
Proof. induction a as [|x a IH]; simpl; [auto|]. intros H; injection H; auto. Qed.

Lemma has_char_app c a b : has_char c (a ++ b) = has_char c a || has_char c b.
Proof. induction a as [|x a IH]; simpl; [reflexivity|]. rewrite IH, orb_assoc. reflexivity. Qed.

Lemma has_prefix_refl s : has_prefix s s = true.
Proof. induction s as [|a s IH]; simpl; [reflexivity|]. rewrite Ascii.eqb_refl. exact IH. Qed.

Lemma has_prefix_app p s : has_prefix p (p ++ s) = true.
Proof. induction p as [|a p IH]; simpl; [reflexivity|]. rewrite Ascii.eqb_refl. exact IH. Qed.

Lemma has_prefix_spec p s : has_prefix p s = true <-> exists t, s = (p ++ t)%string.
Proof.
  split.
  - revert s; induction p as [|a p IH]; intros [|b s]; simpl; intros H; try discriminate.
    + exists ""; reflexivity.
    + exists (String b s); reflexivity.
    + apply andb_true_iff in H as [H1 H2]. apply Ascii.eqb_eq in H1. subst b.
      destruct (IH _ H2) as [t ->]. exists t; reflexivity.
  - intros [t ->]. apply has_prefix_app.
Qed.

Lemma str_drop_app a b : str_drop (String.length a) (a ++ b) = b.
Proof. induction a as [|x a IH]; simpl; [destruct b; reflexivity|exact IH]. Qed.

Lemma str_take_app a b : str_take (String.length a) (a ++ b) = a.
Proof. induction a as [|x a IH]; simpl; [destruct b; reflexivity|]. rewrite IH. reflexivity. Qed.

Lemma str_take_drop n s : (str_take n s ++ str_drop n s)%string = s.
Proof.
  revert s; induction n as [|n IH]; intros [|c s]; simpl; try reflexivity.
  rewrite IH. reflexivity.
Qed.

Lemma str_take_length n s : String.length (str_take n s) = Nat.min n (String.length s).
Proof.
  revert s; induction n as [|n IH]; intros [|c s]; simpl; try reflexivity.
  rewrite IH. reflexivity.
Qed.

(** Splitting a string at the first occurrence of a byte is unambiguous. *)
Lemma cut_at_char_unique c a b a' b' :
  has_char c a = false -> has_char c a' = false ->
  (a ++ String c b)%string = (a' ++ String c b')%string -> a = a' /\ b = b'.
Proof.
  revert a'; induction a as [|x a IH]; intros [|y a']; simpl; intros Ha Ha' H.
  - injection H; auto.
  - injection H as H1 H2. subst y. rewrite Ascii.eqb_refl in Ha'. discriminate.
  - injection H as H1 H2. subst x. rewrite Ascii.eqb_refl in Ha. discriminate.
  - injection H as H1 H2. subst y. apply orb_false_iff in Ha as [_ Ha].
    apply orb_false_iff in Ha' as [_ Ha'].
    destruct (IH _ Ha Ha' H2) as [-> ->]. auto.
Qed.

Lemma split_char_app_sep c a b :
  has_char c a = false -> split_char c (a ++ String c b) = a :: split_char c b.
Proof.
  induction a as [|x a IH]; simpl; intros H.
  - rewrite Ascii.eqb_refl. reflexivity.
  - apply orb_false_iff in H as [H1 H2]. rewrite H1, (IH H2). reflexivity.
Qed.

Lemma split_char_nosep c a : has_char c a = false -> split_char c a = [a].
Proof.
  induction a as [|x a IH]; simpl; intros H; [reflexivity|].
  apply orb_false_iff in H as [H1 H2]. rewrite H1, (IH H2). reflexivity.
Qed.

(** [strings.Split] undoes [strings.Join] on non-empty lists of separator-free strings. *)
Lemma split_join_char c l :
  l <> [] -> Forall (fun s => has_char c s = false) l ->
  split_char c (join (String c "") l) = l.
Proof.
  intros Hne HF. induction HF as [|x l Hx HF IH]; [congruence|].
  destruct l as [|y l].
  - simpl. apply split_char_nosep, Hx.
  - change (join (String c "") (x :: y :: l)) with (x ++ String c (join (String c "") (y :: l)))%string.
    rewrite split_char_app_sep by exact Hx. f_equal. apply IH. discriminate.
Qed.

Lemma join_has_char c sep l :
  has_char c sep = false -> Forall (fun s => has_char c s = false) l ->
  has_char c (join sep l) = false.
Proof.
  intros Hs HF. induction HF as [|x l Hx HF IH]; [reflexivity|].
  destruct l as [|y l]; [exact Hx|].
  change (join sep (x :: y :: l)) with (x ++ sep ++ join sep (y :: l))%string.
  rewrite !has_char_app, Hx, Hs, IH. reflexivity.
Qed.

(** [strings.Join] is injective on lists of separator-free strings, apart from [[]] vs [[""]]. *)
Lemma join_inj c l1 l2 :
  Forall (fun s => has_char c s = false) l1 -> Forall (fun s => has_char c s = false) l2 ->
  join (String c "") l1 = join (String c "") l2 ->
  l1 = l2 \/ (l1 = [] /\ l2 = [""]) \/ (l1 = [""] /\ l2 = []).
Proof.
  intros H1 H2 E. destruct l1 as [|a l1]; destruct l2 as [|b l2].
  - left; reflexivity.
  - right; left. split; [reflexivity|].
    assert (Hs : split_char c (join (String c "") (b :: l2)) = b :: l2)
      by (apply split_join_char; [discriminate|exact H2]).
    rewrite <- E in Hs. simpl in Hs. congruence.
  - right; right. split; [|reflexivity].
    assert (Hs : split_char c (join (String c "") (a :: l1)) = a :: l1)
      by (apply split_join_char; [discriminate|exact H1]).
    rewrite E in Hs. simpl in Hs. congruence.
  - left. rewrite <- (split_join_char c (a :: l1)), <- (split_join_char c (b :: l2));
      [rewrite E; reflexivity|discriminate|exact H2|discriminate|exact H1].
Qed.

(** ** Maps *)

Section MapFacts.
  Variables K V : Type.
  Variable keqb : K -> K -> bool.
  Hypothesis keqb_spec : forall a b, keqb a b = true <-> a = b.

  Lemma keqb_refl a : keqb a a = true.
  Proof. apply keqb_spec; reflexivity. Qed.

  Lemma keqb_neq a b : a <> b -> keqb a b = false.
  Proof. intros H. destruct (keqb a b) eqn:E; [|reflexivity]. apply keqb_spec in E. contradiction. Qed.

  Lemma mget_mset_same m k (v : V) : mget keqb (mset keqb m k v) k = Some v.
  Proof.
    induction m as [|[k' v'] m IH]; simpl; [rewrite keqb_refl; reflexivity|].
    destruct (keqb k k') eqn:E; simpl; rewrite E; [reflexivity|exact IH].
  Qed.

  Lemma mget_mset_other m k k' (v : V) : k <> k' -> mget keqb (mset keqb m k v) k' = mget keqb m k'.
  Proof.
    intros Hne. induction m as [|[k2 v2] m IH]; simpl.
    - rewrite keqb_neq by congruence. reflexivity.
    - destruct (keqb k k2) eqn:E; simpl.
      + apply keqb_spec in E. subst k2. rewrite keqb_neq by congruence. reflexivity.
      + rewrite IH. reflexivity.
  Qed.

  Lemma mset_keys m k (v : V) :
    mkeys (mset keqb m k v) = if existsb (keqb k) (mkeys m) then mkeys m else mkeys m ++ [k].
  Proof.
    induction m as [|[k' v'] m IH]; simpl; [reflexivity|].
    destruct (keqb k k'); simpl; [reflexivity|].
    unfold mkeys in *. rewrite IH. destruct (existsb (keqb k) (map fst m)); reflexivity.
  Qed.

  Lemma mget_in m k (v : V) : mget keqb m k = Some v -> In (k, v) m.
  Proof.
    induction m as [|[k' v'] m IH]; simpl; [discriminate|].
    destruct (keqb k k') eqn:E.
    - intros H. injection H as ->. apply keqb_spec in E. subst. left; reflexivity.
    - intros H. right; auto.
  Qed.

  Lemma mget_none m k : mget keqb m k = None <-> ~ In k (@mkeys K V m).
  Proof.
    induction m as [|[k' v'] m IH]; simpl; [tauto|].
    destruct (keqb k k') eqn:E.
    - apply keqb_spec in E. subst. split; [discriminate|]. intros H; exfalso; apply H; auto.
    - rewrite IH. split; [|tauto]. intros H [->|H2]; [rewrite keqb_refl in E; discriminate|auto].
  Qed.

  Lemma mget_nodup m k (v : V) : NoDup (mkeys m) -> In (k, v) m -> mget keqb m k = Some v.
  Proof.
    induction m as [|[k' v'] m IH]; simpl; [contradiction|].
    intros HN [E|H]; inversion HN as [|? ? Hni HN']; subst.
    - injection E as -> ->. rewrite keqb_refl. reflexivity.
    - destruct (keqb k k') eqn:E; [|auto].
      apply keqb_spec in E. subst k'. exfalso. apply Hni. apply in_map_iff. exists (k, v). auto.
  Qed.

  Lemma mset_nodup m k (v : V) : NoDup (mkeys m) -> NoDup (mkeys (mset keqb m k v)).
  Proof.
    intros H. rewrite mset_keys. destruct (existsb (keqb k) (mkeys m)) eqn:E; [exact H|].
    assert (Hn : ~ In k (mkeys m)).
    { intros Hin. assert (existsb (keqb k) (mkeys m) = true); [|congruence].
      apply existsb_exists. exists k. split; [exact Hin|apply keqb_refl]. }
    apply (Permutation_NoDup (l := k :: mkeys m)).
    - apply Permutation_cons_append.
    - constructor; assumption.
  Qed.

  Lemma mset_fresh m k (v : V) : ~ In k (mkeys m) -> mset keqb m k v = m ++ [(k, v)].
  Proof.
    induction m as [|[k' v'] m IH]; simpl; [reflexivity|].
    intros H. rewrite keqb_neq by (intros ->; apply H; auto). f_equal. apply IH. tauto.
  Qed.
End MapFacts.

Section MappFacts.
  Variables K V : Type.
  Variable keqb : K -> K -> bool.
  Hypothesis keqb_spec : forall a b, keqb a b = true <-> a = b.

  Lemma mapp_keys m k (v : V) :
    mkeys (mapp keqb m k v) = if existsb (keqb k) (mkeys m) then mkeys m else mkeys m ++ [k].
  Proof.
    induction m as [|[k' v'] m IH]; simpl; [reflexivity|].
    destruct (keqb k k'); simpl; [reflexivity|].
    unfold mkeys in *. rewrite IH. destruct (existsb (keqb k) (map fst m)); reflexivity.
  Qed.

  Lemma mapp_nodup m k (v : V) : NoDup (mkeys m) -> NoDup (mkeys (mapp keqb m k v)).
  Proof.
    intros H. rewrite mapp_keys. destruct (existsb (keqb k) (mkeys m)) eqn:E; [exact H|].
    assert (Hn : ~ In k (mkeys m)).
    { intros Hin. assert (existsb (keqb k) (mkeys m) = true); [|congruence].
      apply existsb_exists. exists k. split; [exact Hin|apply keqb_spec; reflexivity]. }
    apply (Permutation_NoDup (l := k :: mkeys m)).
    - apply Permutation_cons_append.
    - constructor; assumption.
  Qed.

  (** The slice stored under [k]; empty if absent, as in Go. *)
  Definition mslice (m : list (K * list V)) (k : K) : list V :=
    match mget keqb m k with Some l => l | None => [] end.

  Lemma mapp_slice_same m k (v : V) : mslice (mapp keqb m k v) k = mslice m k ++ [v].
  Proof.
    unfold mslice. induction m as [|[k' vs] m IH]; simpl.
    - rewrite (proj2 (keqb_spec k k) eq_refl). reflexivity.
    - destruct (keqb k k') eqn:E; simpl; rewrite E; [reflexivity|exact IH].
  Qed.

  Lemma mapp_slice_other m k k' (v : V) : k <> k' -> mslice (mapp keqb m k v) k' = mslice m k'.
  Proof.
    intros Hne. unfold mslice. induction m as [|[k2 vs] m IH]; simpl.
    - destruct (keqb k' k) eqn:E; [apply keqb_spec in E; congruence|reflexivity].
    - destruct (keqb k k2) eqn:E; simpl.
      + apply keqb_spec in E. subst k2.
        destruct (keqb k' k) eqn:E2; [apply keqb_spec in E2; congruence|reflexivity].
      + destruct (keqb k' k2); [reflexivity|exact IH].
  Qed.
End MappFacts.

(** Grouping a list by a key with [mapp], as the code does with [m[k] = append(m[k], x)]. *)
Section GroupFacts.
  Variables K V : Type.
  Variable keqb : K -> K -> bool.
  Hypothesis keqb_spec : forall a b, keqb a b = true <-> a = b.
  Variable f : V -> K.

  Definition group_by (l : list V) : list (K * list V) :=
    fold_left (fun m x => mapp keqb m (f x) x) l [].

  Lemma group_by_gen l m :
    NoDup (mkeys m) ->
    NoDup (mkeys (fold_left (fun m x => mapp keqb m (f x) x) l m)) /\
    (forall k, mslice K V keqb (fold_left (fun m x => mapp keqb m (f x) x) l m) k
               = mslice K V keqb m k ++ filter (fun x => keqb k (f x)) l) /\
    (forall k, In k (mkeys (fold_left (fun m x => mapp keqb m (f x) x) l m))
               <-> In k (mkeys m) \/ In k (map f l)).
  Proof.
    revert m; induction l as [|x l IH]; intros m HN; simpl.
    - split; [exact HN|]. split; [intros k; rewrite app_nil_r; reflexivity|]. intros k; tauto.
    - destruct (IH (mapp keqb m (f x) x)) as (H1 & H2 & H3).
      { apply mapp_nodup; assumption. }
      split; [exact H1|]. split.
      + intros k. rewrite H2. destruct (keqb k (f x)) eqn:E.
        * apply keqb_spec in E. subst k. rewrite mapp_slice_same by exact keqb_spec.
          rewrite <- app_assoc. reflexivity.
        * rewrite mapp_slice_other; [reflexivity|exact keqb_spec|].
          intros Ek. rewrite Ek in E. rewrite (proj2 (keqb_spec k k) eq_refl) in E. discriminate.
      + intros k. rewrite H3. rewrite mapp_keys.
        destruct (existsb (keqb (f x)) (mkeys m)) eqn:E.
        * apply existsb_exists in E as (k2 & Hk2 & E). apply keqb_spec in E. subst k2.
          split; [tauto|]. intros [H|[H|H]]; subst; auto.
        * rewrite in_app_iff. simpl. tauto.
  Qed.

  Lemma group_by_nodup l : NoDup (mkeys (group_by l)).
  Proof. apply group_by_gen. constructor. Qed.

  Lemma group_by_keys l k : In k (mkeys (group_by l)) <-> In k (map f l).
  Proof. unfold group_by. destruct (group_by_gen l []) as (_ & _ & H); [constructor|]. rewrite H. simpl. tauto. Qed.

  Lemma group_by_slice l k : mslice K V keqb (group_by l) k = filter (fun x => keqb k (f x)) l.
  Proof. unfold group_by. destruct (group_by_gen l []) as (_ & H & _); [constructor|]. rewrite H. reflexivity. Qed.

  Lemma group_by_in l k vs :
    In (k, vs) (group_by l) -> vs = filter (fun x => keqb k (f x)) l /\ vs <> [].
  Proof.
    intros H.
    assert (E : mslice K V keqb (group_by l) k = vs).
    { unfold mslice. rewrite (mget_nodup _ _ keqb keqb_spec _ k vs); [reflexivity|apply group_by_nodup|exact H]. }
    rewrite group_by_slice in E. split; [congruence|].
    assert (Hk : In k (map f l)).
    { apply group_by_keys. apply in_map_iff. exists (k, vs). auto. }
    apply in_map_iff in Hk as (x & Hx & Hin). intros ->.
    assert (Hf : In x (filter (fun x => keqb k (f x)) l)).
    { apply filter_In. split; [exact Hin|]. apply keqb_spec. congruence. }
    rewrite E in Hf. exact Hf.
  Qed.

  Lemma group_by_complete l x : In x l -> exists vs, In (f x, vs) (group_by l) /\ In x vs.
  Proof.
    intros H.
    assert (Hk : In (f x) (mkeys (group_by l))) by (apply group_by_keys, in_map, H).
    unfold mkeys in Hk. apply in_map_iff in Hk as ([k vs] & E & Hin). simpl in E. subst k.
    exists vs. split; [exact Hin|].
    apply group_by_in in Hin as [-> _]. apply filter_In. split; [exact H|].
    apply keqb_spec; reflexivity.
  Qed.
End GroupFacts.
