(** * Facts on association lists as Go maps. *)

From Coq Require Import List String Bool Permutation.
From Verif Require Import GoLib GoLibFacts.
Import ListNotations.

Section Maps.
  Variables K V : Type.
  Variable keqb : K -> K -> bool.
  Hypothesis keqb_eq : forall a b, keqb a b = true <-> a = b.
  Notation mget := (@mget K V keqb).
  Notation mset := (@mset K V keqb).

  Lemma keqb_refl a : keqb a a = true.
  Proof. apply keqb_eq. reflexivity. Qed.
  Lemma keqb_neq a b : a <> b -> keqb a b = false.
  Proof. intros H. destruct (keqb a b) eqn:E; [apply keqb_eq in E; contradiction|reflexivity]. Qed.

  Lemma mget_mset_eq m k v : mget (mset m k v) k = Some v.
  Proof. induction m as [|[k' v'] m IH]; simpl; [rewrite keqb_refl; reflexivity|]. destruct (keqb k k') eqn:E; simpl; rewrite E; auto. Qed.
  Lemma mget_mset_ne m k k' v : k' <> k -> mget (mset m k v) k' = mget m k'.
  Proof.
    intros H. induction m as [|[j w] m IH]; simpl; [rewrite keqb_neq by assumption; reflexivity|]. destruct (keqb k j) eqn:E; simpl.
    - apply keqb_eq in E. subst j. rewrite keqb_neq by assumption. reflexivity.
    - rewrite IH. reflexivity.
  Qed.
  Lemma mget_in m k v : mget m k = Some v -> In (k, v) m.
  Proof.
    induction m as [|[k' v'] m IH]; simpl; [discriminate|]. destruct (keqb k k') eqn:E; [|auto]. apply keqb_eq in E. intros [= ->]. left. congruence.
  Qed.
  Lemma mget_none m k : mget m k = None <-> ~ In k (map fst m).
  Proof.
    induction m as [|[k' v'] m IH]; simpl; [tauto|]. destruct (keqb k k') eqn:E.
    - apply keqb_eq in E. subst. split; [discriminate|tauto].
    - rewrite IH. assert (k' <> k) by (intros ->; rewrite keqb_refl in E; discriminate). tauto.
  Qed.
  Lemma in_mget m k v : NoDup (map fst m) -> In (k, v) m -> mget m k = Some v.
  Proof.
    induction m as [|[k' v'] m IH]; simpl; [tauto|]. intros H [[= -> ->]|Hi]; [rewrite keqb_refl; reflexivity|]. inversion H; subst.
    rewrite keqb_neq; auto. intros ->. apply H2. apply (in_map fst) in Hi. exact Hi.
  Qed.
  Lemma mset_keys m k v x : In x (map fst (mset m k v)) <-> x = k \/ In x (map fst m).
  Proof.
    induction m as [|[k' v'] m IH]; simpl; [intuition|]. destruct (keqb k k') eqn:E; simpl.
    - apply keqb_eq in E. subst. intuition.
    - rewrite IH. tauto.
  Qed.
  Lemma mset_keys_present m k v : In k (map fst m) -> map fst (mset m k v) = map fst m.
  Proof.
    induction m as [|[k' v'] m IH]; simpl; [tauto|]. intros H. destruct (keqb k k') eqn:E; simpl; [reflexivity|]. f_equal. apply IH.
    destruct H as [->|H]; [rewrite keqb_refl in E; discriminate|exact H].
  Qed.
  Lemma mset_nodup m k v : NoDup (map fst m) -> NoDup (map fst (mset m k v)).
  Proof.
    induction m as [|[k' v'] m IH]; simpl; intros H; [repeat constructor; simpl; tauto|]. inversion H; subst. destruct (keqb k k') eqn:E; simpl; [constructor; assumption|].
    constructor; auto. rewrite mset_keys. intros [->|Hi]; [rewrite keqb_refl in E; discriminate|contradiction].
  Qed.
  Lemma mget_perm m m' k : NoDup (map fst m) -> Permutation m m' -> mget m' k = mget m k.
  Proof.
    intros N P. assert (N' : NoDup (map fst m')) by (eapply Permutation_NoDup; [apply Permutation_map, P|exact N]).
    destruct (mget m k) as [v|] eqn:E.
    - apply in_mget; auto. exact (Permutation_in _ P (mget_in _ _ _ E)).
    - apply mget_none. apply mget_none in E. intros H. apply E. apply (Permutation_in _ (Permutation_sym (Permutation_map fst P))). exact H.
  Qed.
End Maps.
