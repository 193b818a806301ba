(** * The values schemas admit after a marker *)
From Coq Require Import List String ZArith QArith Bool Lia.
From Verif Require Import GoLib GoLibFacts SchemaModel ValidSpec MarkModel MarkSpec MarkProofs.
Import ListNotations.
Open Scope nat_scope.
Open Scope string_scope.
Open Scope list_scope.

Section M.
  Variable O : oracles.

  Lemma valid_kw s k v : valid O (with_kw s k) v = kw_ok O k v && valid O (with_kw s kw0) v.
  Proof.
    destruct s as [k1 ? ? ? ? ? ? ? ? ? ? ?]. cbn [with_kw valid].
    replace (kw_ok O kw0 v) with true by (destruct v; reflexivity). rewrite !andb_assoc, !andb_true_r. reflexivity.
  Qed.
  Lemma with_kw_id s : with_kw s (s_kw s) = s. Proof. destruct s; reflexivity. Qed.

  Definition check (n : nat) (k : kw) (v : json) : bool := nth n (kw_checks O) (fun _ _ => true) k v.
  Definition others (n : nat) (k : kw) (v : json) : bool := forallb (fun c => c k v) (firstn n (kw_checks O)) && forallb (fun c => c k v) (skipn (S n) (kw_checks O)).
  Lemma kw_ok_at n k v : (n < 19)%nat -> kw_ok O k v = check n k v && others n k v.
  Proof.
    intros L. unfold kw_ok, check, others.
    assert (E : kw_checks O = firstn n (kw_checks O) ++ nth n (kw_checks O) (fun _ _ => true) :: skipn (S n) (kw_checks O)).
    { do 19 (destruct n as [|n]; [reflexivity|]). lia. }
    rewrite E at 1. rewrite forallb_app. cbn [forallb]. rewrite !andb_assoc. f_equal. apply andb_comm.
  Qed.

  (** A marker whose keyword is looked at by one check *)
  Lemma meaning_at n s k' v (A : Prop) : (n < 19)%nat ->
    others n k' v = others n (s_kw s) v ->
    (check n k' v = true <-> check n (s_kw s) v = true /\ A) ->
    (valid O (with_kw s k') v = true <-> valid O s v = true /\ A).
  Proof.
    intros L Ho Hc. rewrite <- (with_kw_id s) at 2. rewrite (valid_kw s k'), (valid_kw s (s_kw s)), !(kw_ok_at n) by exact L.
    rewrite Ho, !andb_true_iff, Hc. tauto.
  Qed.
  Lemma meaning_none s k' v : kw_ok O k' v = kw_ok O (s_kw s) v -> valid O (with_kw s k') v = valid O s v.
  Proof. intros H. rewrite <- (with_kw_id s) at 2. rewrite (valid_kw s k'), (valid_kw s (s_kw s)), H. reflexivity. Qed.

  Lemma qlt_iff a b : qlt_bool a b = true <-> (a < b)%Q.
  Proof. unfold qlt_bool. rewrite negb_true_iff. destruct (Qle_bool b a) eqn:E; [apply Qle_bool_iff in E|]; split; intros H; try discriminate.
    - exfalso. apply (Qlt_not_le _ _ H E).
    - apply Qnot_le_lt. intros C. apply Qle_bool_iff in C. congruence.
    - reflexivity.
  Qed.
  Lemma integer_whole q : is_integer q = true <-> whole q.
  Proof.
    unfold is_integer, whole. rewrite Pos.eqb_eq. split.
    - intros H. exists (Qnum (Qred q)). rewrite <- (Qred_correct q) at 1. unfold Qeq, inject_Z. cbn. rewrite H. lia.
    - intros [z H]. rewrite (Qred_complete _ _ H). unfold Qred, inject_Z.
      pose proof (Z.ggcd_gcd z 1) as G. pose proof (Z.ggcd_correct_divisors z 1) as D.
      destruct (Z.ggcd z 1) as [g [a b]]. cbn in G, D. rewrite Z.gcd_1_r in G. subst g. cbn [Qden]. destruct D as [_ D]. rewrite Z.mul_1_l in D. subst b. reflexivity.
  Qed.
  Lemma on_num_iff v f : on_num v f = true <-> forall n, v = JNum n -> f n = true.
  Proof. destruct v; cbn; split; intros H; try (intros; discriminate); try reflexivity; [intros n [= <-]; exact H|apply H; reflexivity]. Qed.
  Lemma on_str_iff v f : on_str v f = true <-> forall n, v = JStr n -> f n = true.
  Proof. destruct v; cbn; split; intros H; try (intros; discriminate); try reflexivity; [intros n [= <-]; exact H|apply H; reflexivity]. Qed.
  Lemma on_arr_iff v f : on_arr v f = true <-> forall n, v = JArr n -> f n = true.
  Proof. destruct v; cbn; split; intros H; try (intros; discriminate); try reflexivity; [intros n [= <-]; exact H|apply H; reflexivity]. Qed.
  Lemma on_obj_iff v f : on_obj v f = true <-> forall n, v = JObj n -> f n = true.
  Proof. destruct v; cbn; split; intros H; try (intros; discriminate); try reflexivity; [intros n [= <-]; exact H|apply H; reflexivity]. Qed.

  Lemma distinct_iff l : distinct O l = true <-> forall x y z a c, l = x ++ a :: y ++ c :: z -> o_jeq O a c = false.
  Proof.
    induction l as [|h l IH]; cbn [distinct].
    - split; [intros _ x y z a c E; destruct x; discriminate|reflexivity].
    - rewrite andb_true_iff, negb_true_iff, IH. split.
      + intros [H1 H2] x y z a c E. destruct x as [|x0 x]; cbn in E; injection E as -> E.
        * destruct (o_jeq O a c) eqn:J; [|reflexivity]. exfalso. assert (existsb (o_jeq O a) l = true); [|congruence].
          apply existsb_exists. exists c. split; [|exact J]. rewrite E. apply in_elt.
        * apply (H2 x y z a c E).
      + intros H. split.
        * destruct (existsb (o_jeq O h) l) eqn:E; [|reflexivity]. apply existsb_exists in E as (c & I & J). apply in_split in I as (y & z & ->).
          rewrite (H [] y z h c eq_refl) in J. discriminate.
        * intros x y z a c ->. apply (H (h :: x) y z a c eq_refl).
  Qed.

  Ltac at_check n := apply (meaning_at n); [lia|reflexivity|];
    unfold check, kw_checks; cbn [nth].

  Lemma forall_equiv {A} (v : json) (C : A -> json) (P Q : A -> Prop) : (forall n, P n <-> Q n) -> ((forall n, v = C n -> P n) <-> forall n, v = C n -> Q n).
  Proof. intros E; split; intros H n Hn; apply E, (H n Hn). Qed.

  Theorem meaning m s v : usable m s -> silent m (s_kw s) -> m <> MNullable ->
    (valid O (act m s) v = true <-> valid O s v = true /\ admits O m (s_kw s) v).
  Proof.
    intros U S0 N.
    destruct m; cbn [act admits silent] in *.
    - at_check 3. rewrite S0. cbn. rewrite on_num_iff. destruct (k_excl_max (s_kw s)).
      + split; [intros H; split; [reflexivity|]|intros [_ H]]; intros n E; apply qlt_iff, H, E.
      + split; [intros H; split; [reflexivity|]|intros [_ H]]; intros n E; apply Qle_bool_iff, H, E.
    - at_check 4. rewrite S0. cbn. rewrite on_num_iff. destruct (k_excl_min (s_kw s)).
      + split; [intros H; split; [reflexivity|]|intros [_ H]]; intros n E; apply qlt_iff, H, E.
      + split; [intros H; split; [reflexivity|]|intros [_ H]]; intros n E; apply Qle_bool_iff, H, E.
    - at_check 3. cbn. rewrite S0. destruct (k_maximum (s_kw s)) as [q|] eqn:Eq; cbn.
      + rewrite !on_num_iff. destruct b.
        * split.
          -- intros H. split; [intros n E; apply Qle_bool_iff, Qlt_le_weak, qlt_iff, H, E|]. intros n q' E [= <-] _. apply qlt_iff, (H _ E).
          -- intros [_ H] n E. apply qlt_iff, (H n q E eq_refl eq_refl).
        * split; [intros H; split; [exact H|intros; discriminate]|intros [H _]; exact H].
      + split; [intros _; split; [reflexivity|intros; discriminate]|reflexivity].
    - at_check 4. cbn. rewrite S0. destruct (k_minimum (s_kw s)) as [q|] eqn:Eq; cbn.
      + rewrite !on_num_iff. destruct b.
        * split.
          -- intros H. split; [intros n E; apply Qle_bool_iff, Qlt_le_weak, qlt_iff, H, E|]. intros n q' E [= <-] _. apply qlt_iff, (H _ E).
          -- intros [_ H] n E. apply qlt_iff, (H n q E eq_refl eq_refl).
        * split; [intros H; split; [exact H|intros; discriminate]|intros [H _]; exact H].
      + split; [intros _; split; [reflexivity|intros; discriminate]|reflexivity].
    - at_check 11. rewrite S0. cbn. rewrite on_num_iff. tauto.
    - at_check 14. rewrite S0. cbn. rewrite on_obj_iff. split; [intros H; split; [reflexivity|]|intros [_ H]]; intros n E; apply Z.leb_le, H, E.
    - at_check 13. rewrite S0. cbn. rewrite on_obj_iff. split; [intros H; split; [reflexivity|]|intros [_ H]]; intros n E; apply Z.leb_le, H, E.
    - at_check 5. rewrite S0. cbn. rewrite on_str_iff. split; [intros H; split; [reflexivity|]|intros [_ H]]; intros n E; apply Z.leb_le, H, E.
    - at_check 6. rewrite S0. cbn. rewrite on_str_iff. split; [intros H; split; [reflexivity|]|intros [_ H]]; intros n E; apply Z.leb_le, H, E.
    - at_check 7. rewrite S0. cbn [set_pattern with_kw s_kw set_k_pattern k_pattern]. rewrite orb_true_iff, String.eqb_eq, on_str_iff.
      split; [intros [H|H]; split; try reflexivity; intros n E; [left; exact H|right; apply H, E]|].
      intros [_ H]. destruct s0 as [|c p]; [left; reflexivity|]. right. intros n E. destruct (H n E) as [C|C]; [discriminate|exact C].
    - at_check 8. rewrite S0. cbn. rewrite on_arr_iff. split; [intros H; split; [reflexivity|]|intros [_ H]]; intros n E; apply Z.leb_le, H, E.
    - at_check 9. rewrite S0. cbn. rewrite on_arr_iff. split; [intros H; split; [reflexivity|]|intros [_ H]]; intros n E; apply Z.leb_le, H, E.
    - at_check 10. rewrite S0. cbn. destruct b; cbn; [rewrite on_arr_iff|]; split; try (intros [_ H]); try (intros H; split; [reflexivity|]); try reflexivity; try (intros; discriminate).
      + intros _ l x y z a c E. apply (proj1 (distinct_iff l) (H l E)).
      + intros l E. apply distinct_iff. intros x y z a c. apply (H eq_refl l x y z a c E).
    - at_check 12. rewrite S0. cbn. destruct l as [|e l]; [split; [intros _; split; [reflexivity|left; reflexivity]|reflexivity]|].
      change (existsb (o_jeq O v) (e :: l) = true <-> true = true /\ (e :: l = [] \/ (exists x, In x (e :: l) /\ o_jeq O v x = true))).
      rewrite existsb_exists. split; [intros H; split; [reflexivity|right; exact H]|intros [_ [H|H]]; [discriminate|exact H]].
    - at_check 2. rewrite S0. cbn. rewrite orb_true_iff, String.eqb_eq. tauto.
    - at_check 0. rewrite S0. cbn [set_type with_kw s_kw set_k_type k_type k_nullable]. unfold type_ok. cbn [String.eqb orb]. rewrite orb_true_iff, String.eqb_eq. destruct v; rewrite ?orb_true_iff, ?andb_true_iff, ?String.eqb_eq, ?integer_whole; intuition.
    - unfold set_x_preserve. rewrite meaning_none by reflexivity. tauto.
    - at_check 16. rewrite S0. cbn. tauto.
    - at_check 17. rewrite S0. cbn [set_x_int_or_string with_kw s_kw set_k_x_int_or_string k_x_int_or_string negb orb]. destruct v; rewrite ?integer_whole; intuition congruence.
    - at_check 18. cbn. rewrite forallb_app. cbn. rewrite andb_true_r, andb_true_iff. reflexivity.
    - congruence.
    - unfold set_default. rewrite meaning_none by reflexivity. tauto.
    - destruct v0; unfold set_default; rewrite ?meaning_none by reflexivity; tauto.
    - destruct v0; unfold set_title; rewrite ?meaning_none by reflexivity; tauto.
    - unfold set_example. rewrite meaning_none by reflexivity. tauto.
    - unfold set_x_list_type. rewrite meaning_none by reflexivity. tauto.
    - unfold set_x_list_map_keys. rewrite meaning_none by reflexivity. tauto.
    - unfold set_x_map_type. rewrite meaning_none by reflexivity. tauto.
    - unfold set_x_map_type. rewrite meaning_none by reflexivity. tauto.
  Qed.

  (** nullable matters for null only, and only adds it *)
  Theorem meaning_nullable s v : (v <> JNull -> valid O (act MNullable s) v = valid O s v) /\ (valid O s v = true -> valid O (act MNullable s) v = true) /\
    (valid O (act MNullable s) JNull = true <-> valid O (set_type s "") JNull = true).
  Proof.
    cbn [act]. unfold set_nullable, set_type. split; [|split].
    - intros N. apply meaning_none. destruct v; [congruence|reflexivity..].
    - rewrite <- (with_kw_id s) at 1. rewrite (valid_kw s (s_kw s)), (valid_kw s (set_k_nullable _ _)), !(kw_ok_at 0) by lia. rewrite !andb_true_iff. intros [[H1 H2] H3]. split; [split; [|exact H2]|exact H3].
      revert H1. unfold check, kw_checks. cbn [nth]. unfold type_ok. cbn [set_k_nullable k_type k_nullable]. rewrite !orb_true_iff. destruct v; tauto.
    - rewrite (valid_kw s (set_k_nullable _ _)), (valid_kw s (set_k_type _ _)), !(kw_ok_at 0) by lia. rewrite !andb_true_iff. unfold check, kw_checks. cbn [nth]. unfold type_ok. cbn [set_k_nullable set_k_type k_type k_nullable]. rewrite orb_true_r. reflexivity.
  Qed.
End M.
