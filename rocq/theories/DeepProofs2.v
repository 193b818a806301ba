(** * Shallow copies, method calls and single statements *)

From Coq Require Import String List Bool Arith Permutation Lia.
Import ListNotations.
From Verif Require Import GoLib DeepModel DeepSpec DeepProofs.
Open Scope string_scope.
Open Scope nat_scope.
Open Scope list_scope.

Section Proofs.
Variable decls : string -> decl.
Variable M : string -> meths.
Variable zero : ty -> val.
Variable ord : list (val * val) -> list (val * val).
Variable man : string -> heap -> val -> option (heap * val).

(** ** Shallow copying *)

Lemma flat_fields fs : flat decls (TStruct fs) -> forall f, In f fs -> flat decls f.
Proof. intros X. now inversion X. Qed.

Lemma shallow_flat k T b :
  shallow decls k T = Some b -> if b then flat decls T else ~ flat decls T.
Proof.
  revert T b. induction k as [|k IH]; intros T b H; [discriminate H|]. cbn in H.
  destruct T; try (injection H as <-; intros X; now inversion X).
  - injection H as <-. destruct bad; cbn; [intros X; now inversion X|constructor].
  - specialize (IH _ _ H). destruct b; [now constructor|]. intros X. now inversion X.
  - revert b H. induction fs as [|f fs IHf]; intros b H.
    + injection H as <-. constructor. now intros f [].
    + destruct (shallow decls k f) as [[|]|] eqn:Hf; [| |discriminate H].
      * specialize (IHf _ H). apply IH in Hf. destruct b.
        -- constructor. intros g [<-|Hg]; [easy|]. now apply (flat_fields fs).
        -- intros X. apply IHf. constructor. intros g Hg. apply (flat_fields _ X). now right.
      * injection H as <-. intros X. apply (IH _ _ Hf). apply (flat_fields _ X). now left.
Qed.

Section Flat.
Hypothesis Hu : forall n m, d_under (decls n) <> TNamed m.

Lemma under_under n : under decls (TNamed n) = under decls (d_under (decls n)).
Proof. cbn. destruct (d_under (decls n)) eqn:E; try easy. now destruct (Hu n n0). Qed.

Lemma flat_den h T :
  flat decls T -> forall v t fp, den decls h T v t fp -> fp = [].
Proof.
  induction 1 as [s|n Hf IH|fs Hf IH]; intros v t fp H.
  - inversion H; subst; try easy; cbn in *; discriminate.
  - eapply IH. eapply den_under; [|exact H]. apply under_under.
  - inversion H; subst; try (cbn in *; discriminate); [easy|].
    cbn in H0. injection H0 as <-.
    clear Hf H. revert vs ts fp H1. induction fs as [|f fs IHf]; intros vs ts fp H; inversion H; subst; [easy|].
    replace fp0 with (@nil loc) by (symmetry; eapply IH; [now left|eassumption]).
    cbn. eapply IHf; [|eassumption]. intros g Hg. apply IH. now right.
Qed.

Lemma flat_key h T :
  flat decls T -> forall v t fp, den decls h T v t fp -> val_eqb v v = true.
Proof.
  induction 1 as [s|n Hf IH|fs Hf IH]; intros v t fp H.
  - inversion H; subst; cbn in *; try discriminate. apply String.eqb_refl.
  - eapply IH. eapply den_under; [|exact H]. apply under_under.
  - inversion H; subst; try (cbn in *; discriminate).
    + cbn in H0. now destruct H0.
    + cbn in H0. injection H0 as <-. cbn.
      clear Hf H. revert vs ts fp H1. induction fs as [|f fs IHf]; intros vs ts fp H; inversion H; subst; [easy|].
      rewrite (IH f (or_introl eq_refl) _ _ _ H2). cbn. eapply IHf; [|eassumption].
      intros g Hg. apply IH. now right.
Qed.
End Flat.

Lemma val_eqb_eq v : forall w, val_eqb v w = true -> v = w.
Proof.
  revert v. fix IH 1. intros v w H. destruct v, w; try discriminate H.
  - cbn in H. apply String.eqb_eq in H. now subst.
  - easy.
  - f_equal. cbn in H. revert vs vs0 H. fix IHl 1. intros vs ws H.
    destruct vs as [|x vs], ws as [|y ws]; try discriminate H; [easy|].
    apply andb_prop in H. destruct H as (H1 & H2). f_equal; [now apply IH|now apply IHl].
Qed.

Lemma map_at_in kvs k v :
  NoDup (map fst kvs) -> In (k, v) kvs -> val_eqb k k = true -> map_at kvs k = Some v.
Proof.
  induction kvs as [|[k' v'] r IH]; intros Hn Hi Hk; [easy|]. cbn in *. inversion Hn; subst.
  destruct Hi as [E|Hi].
  - injection E as -> ->. now rewrite Hk.
  - destruct (val_eqb k' k) eqn:E; [|now apply IH].
    apply val_eqb_eq in E. subst. exfalso. apply H1. now apply (in_map fst _ (k, v)).
Qed.

Lemma map_set_new kvs k w : ~ In k (map fst kvs) -> map_set kvs k w = kvs ++ [(k, w)].
Proof.
  induction kvs as [|[k' v'] r IH]; intros H; [easy|]. cbn in *.
  destruct (val_eqb k' k) eqn:E.
  - apply val_eqb_eq in E. subst. exfalso. apply H. now left.
  - f_equal. apply IH. intros X. apply H. now right.
Qed.

Lemma map_set_last kvs k w w' :
  ~ In k (map fst kvs) -> val_eqb k k = true ->
  map_set (kvs ++ [(k, w)]) k w' = kvs ++ [(k, w')].
Proof.
  intros H Hk. induction kvs as [|[k' v'] r IH]; cbn.
  - now rewrite Hk.
  - destruct (val_eqb k' k) eqn:E.
    + apply val_eqb_eq in E. subst. exfalso. apply H. now left.
    + f_equal. apply IH. intros X. apply H. now right.
Qed.

(** ** Calls *)

Hypothesis P : program decls M zero ord man.
Let Hu := pr_under _ _ _ _ _ P.

(** A destination and the value made in it. *)
Definition made (h : heap) (T : ty) (t : tree) (b : addr) (h' : heap) : Prop :=
  exists w fp, upd_to h b w h' /\ den decls h' T w t fp /\ Forall (fun l => List.length h <= l) fp.

(** nil may be handed to DeepCopyInto only if a manual method takes care of it. *)
Definition nil_safe (n : string) (v : val) : Prop :=
  is_nil v = false \/ has_any decls (TNamed n) = true.

Definition into_ok (k : nat) (n : string) (t : tree) : Prop :=
  forall h a b v fp vb,
    hread h a = Some v -> den decls h (TNamed n) v t fp -> nil_safe n v ->
    ~ In (fst b) (fst a :: fp) -> hread h b = Some vb -> into_exists M n = true ->
    exists h', into decls M zero ord man k n a b h = Some h' /\ made h (TNamed n) t b h'.

Lemma need_any n : has_any decls (TNamed n) = true -> needs_methods decls n.
Proof.
  unfold has_any, has_copy, has_into. cbn. intros H.
  destruct (d_copy (decls n)) eqn:E; [left; congruence|]. right. now left.
Qed.

Lemma copy_gen_ptr n p : m_copy (M n) = CopyGen p ->
  p = ptr_receiver decls (TNamed n) /\ d_copy (decls n) = None.
Proof.
  intros H. destruct (pr_made _ _ _ _ _ P n) as [(Hg & _)|(k & Hk)].
  - destruct Hg as [X|(q & X)]; congruence.
  - unfold gen_methods in Hk. destruct (d_into (decls n)).
    + injection Hk as X. rewrite <- X in H. cbn in H.
      destruct (d_copy (decls n)); [discriminate H|]. now injection H as <-.
    + destruct (d_copy (decls n)) as [[|]|] eqn:E.
      * injection Hk as X. rewrite <- X in H. discriminate H.
      * injection Hk as X. rewrite <- X in H. discriminate H.
      * destruct (gen_block decls k (TNamed n)) as [[b es]|]; [|discriminate Hk].
        injection Hk as X _. rewrite <- X in H. cbn in H. now injection H as <-.
Qed.

Section Calls.
Variable k : nat.
Variable B : nat.
Hypothesis IH : forall n t, size t < B -> into_ok k n t.
Let ik := into decls M zero ord man k.

Lemma den_nil_ref h T t fp : den decls h T VNil t fp -> by_ref (under decls T) = true /\ t = RNil /\ fp = [].
Proof. intros H. now inversion H. Qed.

(** DeepCopy with a pointer receiver, on a pointer to a value. *)
Lemma call_ptr n h a v t fp :
  on_ptr M n = Some true -> into_exists M n = true ->
  hread h a = Some v -> den decls h (TNamed n) v t fp -> size t < B ->
  exists h' c w fp', call_copy M zero man ik n (VPtr a) h = Some (h', VPtr c) /\
    grows h h' /\ List.length h <= fst c /\ hread h' c = Some w /\
    den decls h' (TNamed n) w t fp' /\ Forall (fun l => List.length h <= l) fp'.
Proof.
  intros Hp Hi Hr Hd Hs. unfold on_ptr in Hp. unfold call_copy.
  destruct (m_copy (M n)) as [|p|p] eqn:Hm; [discriminate Hp| |]; injection Hp as ->.
  - rewrite Hr.
    destruct (pr_given _ _ _ _ _ P n (or_introl (ex_intro _ _ Hm)) h v t fp Hd)
      as (h1 & w & fp' & Hman & Hg & Hd' & Hf). rewrite Hman. cbn.
    assert (Hg2 := grows_alloc h1 w).
    exists (h1 ++ [w]), (List.length h1, []), w, fp'.
    split; [easy|]. split; [eapply grows_trans; eauto|]. split; [apply Hg|].
    split; [apply alloc_read|]. split; [eapply den_grows; eauto|].
    apply Forall_forall. intros l Hl. now apply Hf.
  - cbn. set (z := zero (TNamed n)). assert (Hg := grows_alloc h z).
    destruct (copy_gen_ptr _ _ Hm) as (Hp & Hc).
    destruct (IH n t Hs (h ++ [z]) a (List.length h, []) v fp z) as (h2 & E & w & fp' & U & Hd' & Hf).
    + eapply grows_read; eauto.
    + eapply den_grows; eauto.
    + left. destruct v; try easy. apply den_nil_ref in Hd. destruct Hd as (Hd & _).
      unfold ptr_receiver in Hp. rewrite Hd in Hp. discriminate Hp.
    + cbn [fst]. intros [X|X].
      * apply hread_loc in Hr. lia.
      * assert (Hb := den_bound _ _ _ _ _ _ Hd _ X). lia.
    + apply alloc_read.
    + easy.
    + exists h2, (List.length h, []), w, fp'. split; [unfold ik; now rewrite E|].
      split; [eapply grows_upd_new; [exact Hg| |exact U]; cbn; lia|].
      split; [cbn; lia|]. split; [eapply upd_read; eauto|]. split; [easy|].
      eapply Forall_impl; [|exact Hf]. intros l Hl. rewrite app_length in Hl. lia.
Qed.

(** DeepCopy with a value receiver. *)
Lemma call_val n h v t fp :
  on_ptr M n = Some false -> into_exists M n = true ->
  den decls h (TNamed n) v t fp -> size t < B ->
  exists h' w fp', call_copy M zero man ik n v h = Some (h', w) /\
    grows h h' /\ den decls h' (TNamed n) w t fp' /\ Forall (fun l => List.length h <= l) fp'.
Proof.
  intros Hp Hi Hd Hs. unfold on_ptr in Hp. unfold call_copy.
  destruct (m_copy (M n)) as [|p|p] eqn:Hm; [discriminate Hp| |]; injection Hp as ->.
  - destruct (pr_given _ _ _ _ _ P n (or_introl (ex_intro _ _ Hm)) h v t fp Hd)
      as (h1 & w & fp' & Hman & Hg & Hd' & Hf). rewrite Hman.
    exists h1, w, fp'. split; [easy|]. split; [easy|]. split; [easy|].
    apply Forall_forall. intros l Hl. now apply Hf.
  - destruct (is_nil v) eqn:Hnil.
    + destruct v; try discriminate Hnil. exists h, VNil, fp.
      split; [easy|]. split; [apply grows_refl|]. split; [easy|].
      apply den_nil_ref in Hd. destruct Hd as (_ & _ & ->). constructor.
    + set (z := zero (TNamed n)).
      assert (Hg : grows h ((h ++ [z]) ++ [v])) by (eapply grows_trans; apply grows_alloc).
      assert (Hz : hread ((h ++ [z]) ++ [v]) (List.length h, []) = Some z).
      { eapply grows_read; [apply grows_alloc|apply alloc_read]. }
      assert (X : exists h3 w fp', ik n (List.length (h ++ [z]), []) (List.length h, []) ((h ++ [z]) ++ [v]) = Some h3 /\
         grows h h3 /\ hread h3 (List.length h, []) = Some w /\ den decls h3 (TNamed n) w t fp' /\
         Forall (fun l => List.length h <= l) fp').
      { destruct (IH n t Hs ((h ++ [z]) ++ [v]) (List.length (h ++ [z]), []) (List.length h, []) v fp z)
          as (h3 & E & w & fp' & U & Hd' & Hf).
        - apply alloc_read.
        - eapply den_grows; eauto.
        - now left.
        - cbn [fst]. rewrite app_length. cbn. intros [X|X]; [lia|].
          assert (Hb := den_bound _ _ _ _ _ _ Hd _ X). lia.
        - easy.
        - easy.
        - exists h3, w, fp'. split; [exact E|].
          split; [eapply grows_upd_new; [exact Hg| |exact U]; cbn; lia|].
          split; [eapply upd_read; eauto|]. split; [easy|].
          eapply Forall_impl; [|exact Hf]. intros l Hl. rewrite !app_length in Hl. lia. }
      destruct X as (h3 & w & fp' & E & Hg3 & Hr & Hd' & Hf).
      exists h3, w, fp'. split; [|easy].
      destruct v; try discriminate Hnil; cbn; cbn in E; rewrite E; now rewrite Hr.
Qed.

(** [x.DeepCopy()] gives a pointer to a copy, or a copy. *)
Lemma eval_copy_named n h a v t fp p :
  on_ptr M n = Some p -> into_exists M n = true ->
  hread h a = Some v -> den decls h (TNamed n) v t fp -> size t < B ->
  exists h' r w fp', eval_copy decls M zero man ik (TNamed n) (Some a) v h = Some (h', r) /\
    grows h h' /\ den decls h' (TNamed n) w t fp' /\ Forall (fun l => List.length h <= l) fp' /\
    if p then exists c, r = VPtr c /\ List.length h <= fst c /\ hread h' c = Some w else r = w.
Proof.
  intros Hp Hi Hr Hd Hs. unfold eval_copy. cbn [target method_base is_ptr]. rewrite Hp.
  destruct p.
  - destruct (call_ptr n h a v t fp Hp Hi Hr Hd Hs) as (h' & c & w & fp' & E & Hg & Hc & Hw & Hd' & Hf).
    exists h', (VPtr c), w, fp'. split; [exact E|]. split; [easy|]. split; [easy|]. split; [easy|]. eauto.
  - destruct (call_val n h v t fp Hp Hi Hd Hs) as (h' & w & fp' & E & Hg & Hd' & Hf).
    exists h', w, w, fp'. easy.
Qed.

(** The same for a pointer. *)
Lemma eval_copy_star n h oa a v t fp p :
  on_ptr M n = Some p -> into_exists M n = true ->
  is_ptr (d_under (decls n)) = false ->
  hread h a = Some v -> den decls h (TNamed n) v t fp -> size t < B ->
  exists h' r w fp', eval_copy decls M zero man ik (TPtr (TNamed n)) oa (VPtr a) h = Some (h', r) /\
    grows h h' /\ den decls h' (TNamed n) w t fp' /\ Forall (fun l => List.length h <= l) fp' /\
    if p then exists c, r = VPtr c /\ List.length h <= fst c /\ hread h' c = Some w else r = w.
Proof.
  intros Hp Hi Hnp Hr Hd Hs. unfold eval_copy, target, method_base. cbn [is_ptr].
  replace (match d_under (decls n) with TPtr _ => None | _ => Some n end) with (Some n)
    by (now destruct (d_under (decls n))).
  rewrite Hp. destruct p.
  - destruct (call_ptr n h a v t fp Hp Hi Hr Hd Hs) as (h' & c & w & fp' & E & Hg & Hc & Hw & Hd' & Hf).
    exists h', (VPtr c), w, fp'. split; [exact E|]. split; [easy|]. split; [easy|]. split; [easy|]. eauto.
  - destruct (call_val n h v t fp Hp Hi Hd Hs) as (h' & w & fp' & E & Hg & Hd' & Hf).
    rewrite Hr. exists h', w, w, fp'. easy.
Qed.
End Calls.
End Proofs.
