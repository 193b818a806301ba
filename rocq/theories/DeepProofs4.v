(** * Whole methods *)

From Coq Require Import String List Bool Arith Permutation Lia.
Import ListNotations.
From Verif Require Import GoLib DeepModel DeepSpec DeepProofs DeepProofs2 DeepProofs3.
Open Scope string_scope.
Open Scope nat_scope.
Open Scope list_scope.

Section Proofs.
Variable decls : string -> decl.
Variable M : string -> meths.
Variable zero : ty -> val.
Variable ord : list (val * val) -> list (val * val).
Variable man : string -> heap -> val -> option (heap * val).
Hypothesis P : program decls M zero ord man.
Let Hu := pr_under _ _ _ _ _ P.

Lemma shape_under T : shape decls M T -> shape decls M (under decls T).
Proof. destruct T; try easy. intros _. cbn. apply (pr_shape _ _ _ _ _ P). Qed.

Lemma shape_fields fs : shape decls M (TStruct fs) ->
  forall f, In f fs -> shape decls M f /\ (is_struct f -> flat decls f).
Proof.
  cbn. induction fs as [|f fs IH]; intros H g Hg; [easy|]. destruct H as (H1 & H2).
  destruct Hg as [<-|Hg]; [easy|]. now apply IH.
Qed.

Section Calls.
Variable k : nat.
Variable B : nat.
Hypothesis IH : forall n t, size t < B -> into_ok decls M zero ord man k n t.
Let ok := block_ok decls M zero ord man k B.

Lemma gen_block_ok g : forall e body,
  gen_block decls g e = Some (body, []) -> shape decls M e ->
  (has_any decls e = true -> is_ptr (under decls e) = true) -> ok body e.
Proof.
  induction g as [|g IHg]; intros e body Hg Hsh Hany; [discriminate Hg|].
  cbn [gen_block] in Hg. unfold gen_step in Hg.
  replace (negb (is_ptr (under decls e)) && has_any decls e) with false in Hg
    by (destruct (has_any decls e); [rewrite (Hany eq_refl)|]; now rewrite ?andb_false_r).
  apply shape_under in Hsh.
  destruct (under decls e) as [bad s|n|e'|e'|kt e'|fs|s] eqn:Hue; try discriminate Hg.
  - destruct bad; [discriminate Hg|].
    assert (Hc : has_copy decls e = None).
    { unfold has_any in Hany. destruct (has_copy decls e); [|easy]. now specialize (Hany eq_refl). }
    rewrite Hc in Hg. injection Hg as <-.
    intros E Ti To h a b v t fp vb C Hra Hd Hnn Hsz Hsep Hrb.
    rewrite x_cons. destruct (slot_read decls M zero ord man P k E star_in star_out a b h e v vb t fp)
      as (h' & -> & Hm); try easy.
    + now apply (el_in _ _ _ _ _ _ _ C).
    + now apply (el_out _ _ _ _ _ _ _ C).
    + apply flat_under. rewrite Hue. constructor.
    + now exists h'.
  - eapply pointer_ok; eauto.
  - eapply slice_ok; eauto.
  - eapply map_ok; eauto.
  - intros E Ti To h a b v t fp vb C Hra Hd Hnn Hsz Hsep Hrb.
    unfold gen_struct in Hg. apply seq2_inv in Hg. destruct Hg as (s1 & s2 & E1 & E2 & ->).
    injection E1 as <-. cbn [app].
    inversion Hd as [| | | | |T' fs' vs ts fps HT' Hds]; subst; try congruence; try discriminate Hnn;
      try (match goal with Q : exists b, under decls e = _ |- _ => destruct Q as (? & Q); congruence end).
    rewrite Hue in HT'. injection HT' as <-.
    rewrite x_cons, x_set. rewrite (ev_in _ _ _ _ _ _ _ _ _ _ _ _ C _ _ Hra), (el_out _ _ _ _ _ _ _ C).
    destruct (write_upd h b vb (VAgg vs) Hrb) as (h1 & -> & U). cbn [keep].
    assert (Hlen := upd_len _ _ _ _ U).
    destruct (fields_ok decls M zero ord man P k B IH g IHg E e Ti To a b fs vs C Hue fs 0 s2 h1 vs [] ts fp E2)
      as (h2 & ws & fps' & Hx & U2 & Hd2 & Hf2); try easy.
    + now apply shape_fields.
    + rewrite <- Hra. apply hread_same. eapply upd_other; eauto.
      * eapply hread_loc; eauto.
      * intros X1. apply Hsep. now left.
    + now apply (upd_read _ _ _ _ U).
    + eapply dens_upd; eauto. intros X1. apply Hsep. now right.
    + rewrite Hx. exists h2. split; [easy|]. exists (VAgg ws), fps'.
      split; [eapply upd_upd; eauto|]. split; [now apply (den_struct decls h2 e fs)|].
      eapply Forall_impl; [|exact Hf2]. cbn. lia.
Qed.
End Calls.

Lemma start_ctx n a b : ctx decls (start n a b) (TNamed n) (TNamed n) (TNamed n) a b.
Proof. now apply ctx_inout. Qed.

Lemma start_in n a b : look (start n a b) "in" = Some (BVal (TPtr (TNamed n)) (VPtr a)).
Proof. reflexivity. Qed.

(** What a generated body does. *)
Lemma body_ok k n t p body :
  (forall n' t', size t' < size t -> into_ok decls M zero ord man k n' t') ->
  m_into (M n) = IntoGen p body ->
  forall h a b v fp vb,
    hread h a = Some v -> den decls h (TNamed n) v t fp -> nil_safe decls n v ->
    ~ In (fst b) (fst a :: fp) -> hread h b = Some vb ->
    exists h', exec_block decls M zero ord man (into decls M zero ord man k) (start n a b) body h = Some h' /\
               made decls h (TNamed n) t b h'.
Proof.
  intros IH Hm h a b v fp vb Hra Hd Hns Hsep Hrb.
  assert (Hbl := hread_loc _ _ _ Hrb).
  destruct (pr_made _ _ _ _ _ P n) as [(_ & [X1|X1])|(g & Hg)]; [congruence|congruence|].
  unfold gen_methods in Hg. destruct (d_into (decls n)) eqn:Hdi.
  { injection Hg as X1. rewrite <- X1 in Hm. discriminate Hm. }
  assert (Hstore : forall h1 w fpw, grows h h1 -> den decls h1 (TNamed n) w t fpw ->
            (forall l, In l fpw -> List.length h <= l < List.length h1) ->
            exists h2, hwrite h1 b w = Some h2 /\ made decls h (TNamed n) t b h2).
  { intros h1 w fpw Hg1 Hdw Hf.
    destruct (write_upd h1 b vb w (grows_read _ _ _ _ Hg1 Hrb)) as (h2 & E2 & U2).
    exists h2. split; [easy|]. exists w, fpw. split; [eapply grows_upd; eauto|]. split.
    - eapply den_upd; eauto. intros X1. apply Hf in X1. lia.
    - apply Forall_forall. intros l Hl. now apply Hf. }
  destruct (d_copy (decls n)) as [cp|] eqn:Hdc.
  - assert (Hnp : is_ptr (d_under (decls n)) = false).
    { destruct (d_under (decls n)) eqn:E; try easy.
      destruct (pr_ptr _ _ _ _ _ P n _ E) as (H1 & _). congruence. }
    assert (Htg : target decls (TPtr (TNamed n)) = Some n).
    { cbn. now destruct (d_under (decls n)). }
    assert (HMc : m_copy (M n) = CopyMan cp).
    { destruct cp; injection Hg as X1; now rewrite <- X1. }
    destruct (pr_given _ _ _ _ _ P n (or_introl (ex_intro _ _ HMc)) h v t fp Hd)
      as (h1 & w & fpw & Hman & Hg1 & Hdw & Hf).
    assert (Hcopy : forall oa, eval_copy decls M zero man (into decls M zero ord man k) (TPtr (TNamed n)) oa (VPtr a) h =
              if cp then Some (h1 ++ [w], VPtr (List.length h1, [])) else Some (h1, w)).
    { intros oa. unfold eval_copy. rewrite Htg. unfold on_ptr. rewrite HMc. cbn [is_ptr].
      unfold call_copy. rewrite HMc. destruct cp.
      - rewrite Hra, Hman. reflexivity.
      - now rewrite Hra. }
    destruct cp; injection Hg as X1; rewrite <- X1 in Hm; injection Hm as <- <-.
    + rewrite x_cons, x_let. unfold te, eval.
      rewrite look_types, start_in. cbn [bind_ty].
      unfold copy_ty. rewrite Htg. unfold on_ptr. rewrite HMc, Hcopy.
      set (h2 := h1 ++ [w]). set (c1 := List.length h1).
      set (h3 := h2 ++ [VPtr (c1, [])]). set (c2 := List.length h2).
      assert (Hg3 : grows h1 h3) by (eapply grows_trans; apply grows_alloc).
      rewrite x_cons, x_set. unfold eval, val_at. cbn [eval_l].
      change (look (("clone", BCell (TPtr (TNamed n)) c2) :: start n a b) "clone")
        with (Some (BCell (TPtr (TNamed n)) c2)). cbv iota.
      assert (Hr2 : hread h3 (c2, []) = Some (VPtr (c1, []))) by apply alloc_read.
      rewrite Hr2.
      assert (Hr1 : hread h3 (c1, []) = Some w).
      { eapply grows_read; [apply grows_alloc|]. apply alloc_read. }
      rewrite Hr1.
      change (eval_l (("clone", BCell (TPtr (TNamed n)) c2) :: start n a b) star_out h3) with (Some b).
      destruct (Hstore h3 w fpw) as (h4 & -> & Hmade).
      * eapply grows_trans; eauto.
      * eapply den_grows; eauto.
      * intros l Hl. apply Hf in Hl. assert (List.length h1 <= List.length h3) by apply Hg3. lia.
      * now exists h4.
    + rewrite x_cons, x_set. unfold eval. rewrite start_in, Hcopy.
      change (eval_l (start n a b) star_out h1) with (Some b).
      destruct (Hstore h1 w fpw Hg1 Hdw Hf) as (h2 & -> & Hmade). now exists h2.
  - destruct (gen_block decls g (TNamed n)) as [[bd es]|] eqn:Hgb; [|discriminate Hg].
    injection Hg as X1 ->. rewrite <- X1 in Hm. injection Hm as <- <-.
    assert (Hna : has_any decls (TNamed n) = false).
    { unfold has_any, has_copy, has_into. cbn. now rewrite Hdc. }
    destruct Hns as [Hns|Hns]; [|congruence].
    apply (gen_block_ok k (size t) IH g (TNamed n) bd Hgb I ltac:(congruence)
             (start n a b) (TNamed n) (TNamed n) h a b v t fp vb (start_ctx n a b) Hra Hd Hns
             (le_n _) Hsep Hrb).
Qed.

Lemma into_all k : forall n t, size t < k -> into_ok decls M zero ord man k n t.
Proof.
  induction k as [|k IH]; intros n t Hs; [lia|].
  intros h a b v fp vb Hra Hd Hns Hsep Hrb Hex.
  assert (Hbl := hread_loc _ _ _ Hrb).
  cbn [into]. unfold into_exists in Hex. destruct (m_into (M n)) as [| |p body] eqn:Hm; [discriminate Hex| |].
  - rewrite Hra.
    destruct (pr_given _ _ _ _ _ P n (or_intror Hm) h v t fp Hd) as (h1 & w & fpw & Hman & Hg1 & Hdw & Hf).
    rewrite Hman. destruct (write_upd h1 b vb w (grows_read _ _ _ _ Hg1 Hrb)) as (h2 & E2 & U2).
    exists h2. split; [easy|]. exists w, fpw. split; [eapply grows_upd; eauto|]. split.
    + eapply den_upd; eauto. intros X1. apply Hf in X1. lia.
    + apply Forall_forall. intros l Hl. now apply Hf.
  - assert (IH' : forall n' t', size t' < size t -> into_ok decls M zero ord man k n' t').
    { intros n' t' Ht. apply IH. lia. }
    destruct p.
    + eapply (body_ok k n t _ body IH' Hm); eauto.
    + rewrite Hra. cbn [alloc]. assert (Hg1 := grows_alloc h v).
      destruct (body_ok k n t _ body IH' Hm (h ++ [v]) (List.length h, []) b v fp vb)
        as (h' & Hx & w & fpw & U & Hdw & Hf).
      * apply alloc_read.
      * eapply den_grows; eauto.
      * easy.
      * cbn [fst]. intros [X1|X1]; [lia|]. apply Hsep. now right.
      * eapply grows_read; eauto.
      * exists h'. split; [easy|]. exists w, fpw. split; [eapply grows_upd; eauto|]. split; [easy|].
        eapply Forall_impl; [|exact Hf]. cbn. intros l Hl. rewrite app_length in Hl. lia.
Qed.

Lemma made_copy h T t b h' : made decls h T t b h' -> changes_only h b h' /\ copy_at decls h T t b h'.
Proof.
  intros (w & fp & U & Hd & Hf). split; [eapply upd_changes; eauto|].
  exists w, fp. split; [eapply upd_read; eauto|]. split; [easy|]. intros l Hl. split.
  - rewrite Forall_forall in Hf. now apply Hf.
  - eapply den_bound; eauto.
Qed.

End Proofs.
