(** * The deepcopy generator returns

    For which declarations does genDeepCopyIntoBlock return?  The generator recurses
    through fields, elements and named types without keeping track of what it has
    seen. *)

From Coq Require Import String List Bool Arith Lia.
Import ListNotations.
From Verif Require Import GoLib DeepModel DeepSpec DeepProofs DeepProofs2.
Open Scope string_scope.
Open Scope nat_scope.
Open Scope list_scope.

(** The named types a value of type [t] contains without any indirection.  (A map
    key is looked at on its own.) *)
Fixpoint holds (t : ty) : list string :=
  match t with
  | TNamed n => [n]
  | TStruct fs => (fix go (fs : list ty) : list string :=
                     match fs with [] => [] | f :: fs' => holds f ++ go fs' end) fs
  | _ => []
  end.

(** The named types reached from [t] by following pointers, elements and map
    values, but not into a struct. *)
Fixpoint follows (t : ty) : list string :=
  match t with
  | TNamed n => [n]
  | TPtr e | TSlice e | TMap _ e => follows e
  | TBasic _ _ | TStruct _ | TOther _ => []
  end.

(** No type contains itself (the compiler sees to it), and no type leads back to
    itself by pointers, elements and map values alone. *)
Record grounded (decls : string -> decl) (hold follow : string -> nat) : Prop := {
  gr_hold : forall n m, In m (holds (d_under (decls n))) -> hold m < hold n;
  gr_follow : forall n m, In m (follows (d_under (decls n))) -> follow m < follow n;
  gr_under : forall n m, d_under (decls n) <> TNamed m }.

Definition ends {A} (f : nat -> option A) : Prop := exists k0, forall k, k0 <= k -> f k <> None.

Section Ends.
Variable decls : string -> decl.
Variables hold follow : string -> nat.
Hypothesis GR : grounded decls hold follow.

Lemma ends_S {A} (f : nat -> option A) : ends (fun k => f (S k)) -> ends f.
Proof.
  intros (k0 & H). exists (S k0). intros [|k] Hk; [lia|]. apply H. lia.
Qed.

Lemma shallow_ends_lt r : forall t, (forall m, In m (holds t) -> hold m < r) -> ends (fun k => shallow decls k t).
Proof.
  induction r as [r IHr] using lt_wf_ind.
  fix IH 1. intros t Ht. apply ends_S. destruct t; try (now exists 0).
  - (* named *) cbn [shallow]. assert (Hn : hold n < r) by (apply Ht; now left).
    apply (IHr (hold n) Hn). intros m Hm. now apply (gr_hold _ _ _ GR).
  - (* struct *) cbn [shallow]. revert fs Ht. fix IHf 1. intros fs Ht. destruct fs as [|f fs]; [now exists 0|].
    destruct (IH f) as (k1 & H1).
    { intros m Hm. apply Ht. cbn. apply in_or_app. now left. }
    destruct (IHf fs) as (k2 & H2).
    { intros m Hm. apply Ht. cbn. apply in_or_app. now right. }
    exists (Nat.max k1 k2). intros k Hk. specialize (H1 k ltac:(lia)). specialize (H2 k ltac:(lia)).
    destruct (shallow decls k f) as [[|]|]; easy.
Qed.

Lemma bounded (rk : string -> nat) (l : list string) : exists r, forall m, In m l -> rk m < r.
Proof.
  induction l as [|a l (r & IH)]; [now exists 0|]. exists (Nat.max (S (rk a)) r).
  intros m [->|H]; [lia|]. specialize (IH m H). lia.
Qed.

Lemma shallow_ends t : ends (fun k => shallow decls k t).
Proof.
  destruct (bounded hold (holds t)) as (r & Hr). now apply (shallow_ends_lt r).
Qed.

Lemma result0_ends_lt r : forall t, (forall m, In m (follows t) -> follow m < r) -> ends (fun k => result_ptr0 decls k t).
Proof.
  induction r as [r IHr] using lt_wf_ind.
  fix IH 1. intros t Ht. apply ends_S. destruct t; try (now exists 0).
  - cbn [result_ptr0]. assert (Hn : follow n < r) by (apply Ht; now left).
    apply (IHr (follow n) Hn). intros m Hm. now apply (gr_follow _ _ _ GR).
  - cbn [result_ptr0]. now apply IH.
Qed.

Lemma result_ends t c : ends (fun k => result_ptr decls k t c).
Proof.
  destruct c; [now exists 0|]. cbn [result_ptr].
  destruct (bounded follow (follows t)) as (r & Hr). now apply (result0_ends_lt r).
Qed.

Lemma wrap_none f r : r <> None -> wrap f r <> None.
Proof. now destruct r as [[? ?]|]. Qed.
Lemma seq2_none r1 r2 : r1 <> None -> r2 <> None -> seq2 r1 r2 <> None.
Proof. now destruct r1 as [[? ?]|], r2 as [[? ?]|]. Qed.

Lemma map_ends t kt e :
  (by_ref (under decls e) = true -> ends (fun k => gen_block decls k e)) ->
  ends (fun k => gen_map decls k (gen_block decls k) t kt e).
Proof.
  intros He. destruct (shallow_ends kt) as (k1 & H1). destruct (shallow_ends e) as (k2 & H2).
  destruct (result_ends e (has_copy decls e)) as (k3 & H3).
  destruct (by_ref (under decls e)) eqn:Hb.
  - destruct (He eq_refl) as (k4 & H4). exists (k1 + k2 + k3 + k4). intros k Hk.
    specialize (H1 k ltac:(lia)). specialize (H2 k ltac:(lia)). specialize (H3 k ltac:(lia)). specialize (H4 k ltac:(lia)).
    unfold gen_map. destruct (shallow decls k kt) as [[|]|]; try easy.
    apply seq2_none; [easy|]. apply wrap_none. unfold gen_map_body. rewrite Hb.
    destruct (has_any decls e).
    + destruct (result_ptr _ _ _ _) as [r|]; [|easy]. destruct (Bool.eqb _ _); [easy|]. now destruct (is_ptr e).
    + destruct (shallow decls k e) as [[|]|]; try easy. apply seq2_none; [easy|]. now apply wrap_none.
  - exists (k1 + k2 + k3). intros k Hk.
    specialize (H1 k ltac:(lia)). specialize (H2 k ltac:(lia)). specialize (H3 k ltac:(lia)).
    unfold gen_map. destruct (shallow decls k kt) as [[|]|]; try easy.
    apply seq2_none; [easy|]. apply wrap_none. unfold gen_map_body. rewrite Hb.
    destruct (has_any decls e).
    + destruct (result_ptr _ _ _ _) as [r|]; [|easy]. destruct (Bool.eqb _ _); [easy|]. now destruct (is_ptr e).
    + destruct (shallow decls k e) as [[|]|]; try easy. now destruct (under decls e).
Qed.

Lemma slice_ends t e :
  (by_ref (under decls e) = true -> ends (fun k => gen_block decls k e)) ->
  ends (fun k => gen_slice decls k (gen_block decls k) t e).
Proof.
  intros He. destruct (shallow_ends (under decls e)) as (k2 & H2).
  assert (Hc : exists k4, by_ref (under decls e) = true -> forall k, k4 <= k -> gen_block decls k e <> None).
  { destruct (by_ref (under decls e)); [|now exists 0]. destruct (He eq_refl) as (k4 & H4). now exists k4. }
  destruct Hc as (k4 & H4).
  exists (k2 + k4). intros k Hk. specialize (H2 k ltac:(lia)).
  unfold gen_slice. apply seq2_none; [easy|]. destruct (has_any decls e); [easy|].
  destruct (shallow decls k (under decls e)) as [[|]|]; try easy. apply wrap_none. rewrite orb_false_r.
  destruct (by_ref (under decls e)).
  - apply wrap_none. apply H4; [easy|lia].
  - now destruct (under decls e).
Qed.

Lemma pointer_ends e :
  (by_ref (under decls e) = true -> ends (fun k => gen_block decls k (under decls e))) ->
  ends (fun k => gen_pointer decls k (gen_block decls k) e).
Proof.
  intros He. destruct (shallow_ends (under decls e)) as (k2 & H2).
  destruct (result_ends e (has_copy decls e)) as (k3 & H3).
  assert (Hc : exists k4, by_ref (under decls e) = true -> forall k, k4 <= k -> gen_block decls k (under decls e) <> None).
  { destruct (by_ref (under decls e)); [|now exists 0]. destruct (He eq_refl) as (k4 & H4). now exists k4. }
  destruct Hc as (k4 & H4).
  exists (k2 + k3 + k4). intros k Hk. specialize (H2 k ltac:(lia)). specialize (H3 k ltac:(lia)).
  unfold gen_pointer. destruct (has_any decls e).
  - destruct (result_ptr _ _ _ _) as [r|]; [|easy]. destruct (match has_copy decls e with Some p => p | None => r end); easy.
  - destruct (shallow decls k (under decls e)) as [[|]|]; try easy.
    destruct (by_ref (under decls e)).
    + apply seq2_none; [easy|]. apply wrap_none. apply H4; [easy|lia].
    + now destruct (under decls e).
Qed.

Lemma fields_ends fs :
  (forall f, In f fs -> by_ref (under decls f) = true -> ends (fun k => gen_block decls k f)) ->
  exists k0, forall k, k0 <= k -> forall i, gen_fields decls k (gen_block decls k) i fs <> None.
Proof.
  induction fs as [|f fs IH]; intros Hf; [now exists 0|].
  destruct IH as (k1 & H1). { intros g Hg. apply Hf. now right. }
  destruct (shallow_ends f) as (k2 & H2). destruct (result_ends f (has_copy decls f)) as (k3 & H3).
  assert (Hc : exists k4, by_ref (under decls f) = true -> forall k, k4 <= k -> gen_block decls k f <> None).
  { destruct (by_ref (under decls f)) eqn:Hb; [|now exists 0]. destruct (Hf f (or_introl eq_refl) Hb) as (k4 & H4). now exists k4. }
  destruct Hc as (k4 & H4).
  exists (k1 + k2 + k3 + k4). intros k Hk i. cbn [gen_fields].
  specialize (H1 k ltac:(lia)). specialize (H2 k ltac:(lia)). specialize (H3 k ltac:(lia)).
  assert (Hgf : gen_field decls k (gen_block decls k) i f <> None).
  { assert (Hd : by_ref (under decls f) = true ->
        match wrap (fun b => [SIfSome (in_f i) (SInOut (EAddr (in_f i)) (EAddr (out_f i)) :: b)]) (gen_block decls k f)
        with Some (ss, es) => Some (ss, es, false) | None => None end <> None).
    { intros Hb. specialize (H4 Hb k ltac:(lia)). now destruct (gen_block decls k f) as [[? ?]|]. }
    unfold gen_field. destruct (has_any decls f).
    - destruct (result_ptr _ _ _ _) as [r|]; [|easy]. destruct (is_ptr f) eqn:Hp.
      + apply Hd. now destruct f.
      + now destruct (Bool.eqb r false).
    - destruct (by_ref (under decls f)) eqn:Hb; [now apply Hd|].
      destruct (under decls f) as [[|] ?| | | | | |]; try easy. now destruct (shallow decls k f) as [[|]|]. }
  destruct (gen_field decls k (gen_block decls k) i f) as [[[ss es] [|]]|]; [easy| |easy].
  apply seq2_none; [easy|]. apply H1.
Qed.

(** The pieces of a reference type that the generator goes on to. *)
Lemma block_step_ends t :
  (forall e, under decls t = TPtr e -> by_ref (under decls e) = true -> ends (fun k => gen_block decls k (under decls e))) ->
  (forall e, under decls t = TSlice e -> by_ref (under decls e) = true -> ends (fun k => gen_block decls k e)) ->
  (forall kt e, under decls t = TMap kt e -> by_ref (under decls e) = true -> ends (fun k => gen_block decls k e)) ->
  (forall fs f, under decls t = TStruct fs -> In f fs -> by_ref (under decls f) = true -> ends (fun k => gen_block decls k f)) ->
  ends (fun k => gen_block decls k t).
Proof.
  intros Hp Hs Hm Hf. apply ends_S. cbn [gen_block]. unfold gen_step.
  destruct (negb (is_ptr (under decls t)) && has_any decls t); [now exists 0|].
  destruct (under decls t) as [bad s|n|e|e|kt e|fs|s]; try (now exists 0).
  - exists 0. intros k _. destruct bad; [easy|]. apply seq2_none; [now destruct (has_copy decls t)|easy].
  - apply pointer_ends. now apply Hp.
  - apply slice_ends. now apply Hs.
  - apply map_ends. now apply (Hm kt).
  - destruct (fields_ends fs) as (k0 & H0). { intros f Hin. now apply (Hf fs). }
    exists k0. intros k Hk. unfold gen_struct. apply seq2_none; [easy|]. now apply H0.
Qed.

Lemma block_ends_lt r : forall t, (forall m, In m (follows t) -> follow m < r) ->
  by_ref (under decls t) = true -> ends (fun k => gen_block decls k t).
Proof.
  induction r as [r IHr] using lt_wf_ind.
  fix IH 1. intros t Ht Hb.
  destruct t as [bad s|n|e|e|kt e|fs|s]; try discriminate Hb.
  - (* a name: every piece has a smaller rank *)
    assert (Hn : follow n < r) by (apply Ht; now left).
    assert (Hfo := gr_follow _ _ _ GR n).
    apply block_step_ends; cbn [under].
    + intros e E Hbe. rewrite E in Hfo. cbn [follows] in Hfo.
      destruct e as [| n0 | | | | |]; try discriminate Hbe; try (now apply (IHr (follow n) Hn)).
      cbn [under]. assert (H0 : follow n0 < follow n) by (apply Hfo; now left).
      apply (IHr (follow n0) ltac:(lia)); [apply (gr_follow _ _ _ GR)|].
      cbn [under] in Hbe. now destruct (d_under (decls n0)).
    + intros e E Hbe. rewrite E in Hfo. now apply (IHr (follow n) Hn).
    + intros kt e E Hbe. rewrite E in Hfo. now apply (IHr (follow n) Hn).
    + intros fs f E. cbn [under] in Hb. rewrite E in Hb. discriminate Hb.
  - assert (X := IH e Ht). clear IH. apply block_step_ends; cbn [under]; try discriminate.
    intros e' E. injection E as <-. intros Hbe. specialize (X Hbe). cbn [follows] in Ht.
    destruct e as [| n0 | | | | |]; try discriminate Hbe; try exact X.
    cbn [under] in *. assert (H0 : follow n0 < r) by (apply Ht; now left).
    apply (IHr (follow n0) H0); [apply (gr_follow _ _ _ GR)|]. now destruct (d_under (decls n0)).
  - assert (X := IH e Ht). clear IH. apply block_step_ends; cbn [under]; try discriminate.
    intros e' E. now injection E as <-.
  - assert (X := IH e Ht). clear IH. apply block_step_ends; cbn [under]; try discriminate.
    intros kt' e' E. now injection E as _ <-.
Qed.

Lemma block_ends t : ends (fun k => gen_block decls k t).
Proof.
  destruct (by_ref (under decls t)) eqn:Hb.
  - destruct (bounded follow (follows t)) as (r & Hr). now apply (block_ends_lt r).
  - apply block_step_ends; try (intros; match goal with E : under decls t = _ |- _ => rewrite E in Hb; discriminate Hb end).
    intros fs f E Hin Hf. destruct (bounded follow (follows f)) as (r & Hr). now apply (block_ends_lt r).
Qed.

Lemma methods_end n : ends (fun k => gen_methods decls k n).
Proof.
  destruct (block_ends (TNamed n)) as (k0 & H0). exists k0. intros k Hk. specialize (H0 k Hk).
  unfold gen_methods. destruct (d_into (decls n)); [easy|]. destruct (d_copy (decls n)) as [[|]|]; try easy.
  now destruct (gen_block decls k (TNamed n)) as [[? ?]|].
Qed.

End Ends.

(** One round of the generator that leads to another one, without passing a struct
    or a type with manual methods. *)
Definition again (decls : string -> decl) (t e : ty) : Prop :=
  (is_ptr (under decls t) = true \/ has_any decls t = false) /\
  ((under decls t = TSlice e /\ by_ref (under decls e) = true /\ has_any decls e = false) \/
   (exists kt, under decls t = TMap kt e /\ flat decls kt /\
               by_ref (under decls e) = true /\ has_any decls e = false) \/
   (exists e', under decls t = TPtr e' /\ e = under decls e' /\
               by_ref e = true /\ has_any decls e' = false)).

Lemma shallow_by_ref decls k t : by_ref t = true -> shallow decls k t <> Some true.
Proof. destruct k; [easy|]. now destruct t. Qed.

Lemma shallow_by_ref_under decls k t : by_ref (under decls t) = true -> shallow decls k t <> Some true.
Proof.
  destruct k; [easy|]. destruct t; try easy. cbn [under shallow]. apply shallow_by_ref.
Qed.

Lemma runs_forever decls (S : ty -> Prop) :
  (forall t, S t -> exists e, S e /\ again decls t e) ->
  forall k t, S t -> gen_block decls k t = None.
Proof.
  intros HS. induction k as [|k IH]; intros t Ht; [easy|].
  destruct (HS t Ht) as (e & He & Hm & Hc). specialize (IH e He).
  cbn [gen_block]. unfold gen_step.
  replace (negb (is_ptr (under decls t)) && has_any decls t) with false
    by (destruct Hm as [-> | ->]; now rewrite ?andb_false_r).
  destruct Hc as [(-> & Hb & Ha)|[(kt & -> & Hk & Hb & Ha)|(e' & -> & -> & Hb & Ha)]].
  - unfold gen_slice, wr_ty. rewrite Ha, Hb, IH. cbn [orb wrap].
    assert (X := shallow_by_ref decls k (under decls e) Hb).
    now destruct (shallow decls k (under decls e)) as [[|]|].
  - unfold gen_map. destruct (shallow decls k kt) as [[|]|] eqn:E; [| |easy].
    + unfold gen_map_body, wr_ty. rewrite Ha, Hb, IH. cbn [wrap].
      assert (X := shallow_by_ref_under decls k e Hb). now destruct (shallow decls k e) as [[|]|].
    + exfalso. apply shallow_flat in E. now apply E.
  - unfold gen_pointer. rewrite Ha.
    rewrite Hb, IH. cbn [wrap].
    assert (X := shallow_by_ref decls k (under decls e') Hb).
    now destruct (shallow decls k (under decls e')) as [[|]|].
Qed.

(** ** More fuel never changes a result *)

Definition mono {A} (f : nat -> option A) : Prop := forall k x, f k = Some x -> f (S k) = Some x.

Lemma shallow_mono decls : forall k t x, shallow decls k t = Some x -> shallow decls (S k) t = Some x.
Proof.
  induction k as [|k IH]; intros t x H; [discriminate H|].
  destruct t; try exact H; cbn [shallow] in H |- *.
  - now apply IH.
  - revert x H. induction fs as [|f fs IHf]; intros x H; [exact H|].
    destruct (shallow decls k f) as [b|] eqn:E; [|discriminate H].
    apply IH in E. cbn [shallow] in E. rewrite E. destruct b; [|exact H]. now apply IHf.
Qed.

Lemma result0_mono decls : forall k t x, result_ptr0 decls k t = Some x -> result_ptr0 decls (S k) t = Some x.
Proof.
  induction k as [|k IH]; intros t x H; [discriminate H|].
  destruct t; try exact H; cbn [result_ptr0] in H |- *; now apply IH.
Qed.

Lemma result_mono decls k t c x : result_ptr decls k t c = Some x -> result_ptr decls (S k) t c = Some x.
Proof. destruct c; [easy|]. apply result0_mono. Qed.

Lemma wrap_some f r x : wrap f r = Some x -> exists ss es, r = Some (ss, es) /\ x = (f ss, es).
Proof. destruct r as [[ss es]|]; [|discriminate]. intros H. injection H as <-. now exists ss, es. Qed.
Lemma seq2_some r1 r2 x : seq2 r1 r2 = Some x ->
  exists s1 e1 s2 e2, r1 = Some (s1, e1) /\ r2 = Some (s2, e2) /\ x = (s1 ++ s2, e1 ++ e2).
Proof.
  destruct r1 as [[s1 e1]|], r2 as [[s2 e2]|]; try discriminate. intros H. injection H as <-.
  now exists s1, e1, s2, e2.
Qed.

Section Mono.
Variable decls : string -> decl.
Variable k : nat.
Variables b b' : ty -> res.
Hypothesis B : forall t x, b t = Some x -> b' t = Some x.

Lemma wrap_mono f t x : wrap f (b t) = Some x -> wrap f (b' t) = Some x.
Proof. intros H. apply wrap_some in H. destruct H as (ss & es & H & ->). now rewrite (B _ _ H). Qed.
Lemma seq2_mono r1 r2 r2' x : (forall x, r2 = Some x -> r2' = Some x) -> seq2 r1 r2 = Some x -> seq2 r1 r2' = Some x.
Proof.
  intros HR H. apply seq2_some in H. destruct H as (s1 & e1 & s2 & e2 & -> & H & ->). now rewrite (HR _ H).
Qed.
Lemma wrap_mono_r f r r' x : (forall x, r = Some x -> r' = Some x) -> wrap f r = Some x -> wrap f r' = Some x.
Proof. intros HR H. apply wrap_some in H. destruct H as (ss & es & H & ->). now rewrite (HR _ H). Qed.

Lemma map_body_mono e x : gen_map_body decls k b e = Some x -> gen_map_body decls (S k) b' e = Some x.
Proof.
  unfold gen_map_body. destruct (has_any decls e).
  - destruct (result_ptr decls k e (has_copy decls e)) as [r|] eqn:E; [|discriminate].
    now rewrite (result_mono _ _ _ _ _ E).
  - destruct (shallow decls k e) as [s|] eqn:E; [|discriminate]. rewrite (shallow_mono _ _ _ _ E).
    destruct s; [easy|]. destruct (by_ref (under decls e)); [|easy].
    apply seq2_mono. intros y. apply wrap_mono.
Qed.

Lemma map_mono t kt e x : gen_map decls k b t kt e = Some x -> gen_map decls (S k) b' t kt e = Some x.
Proof.
  unfold gen_map. destruct (shallow decls k kt) as [s|] eqn:E; [|discriminate]. rewrite (shallow_mono _ _ _ _ E).
  destruct s; [|easy]. apply seq2_mono. intros y. apply wrap_mono_r. apply map_body_mono.
Qed.

Lemma slice_mono t e x : gen_slice decls k b t e = Some x -> gen_slice decls (S k) b' t e = Some x.
Proof.
  unfold gen_slice. apply seq2_mono. intros y. destruct (has_any decls e); [easy|].
  destruct (shallow decls k (under decls e)) as [s|] eqn:E; [|discriminate]. rewrite (shallow_mono _ _ _ _ E).
  destruct s; [easy|]. apply wrap_mono_r. intros z. rewrite orb_false_r. destruct (by_ref (under decls e)); [|easy].
  apply wrap_mono.
Qed.

Lemma pointer_mono e x : gen_pointer decls k b e = Some x -> gen_pointer decls (S k) b' e = Some x.
Proof.
  unfold gen_pointer. destruct (has_any decls e).
  - destruct (result_ptr decls k e (has_copy decls e)) as [r|] eqn:E; [|discriminate].
    now rewrite (result_mono _ _ _ _ _ E).
  - destruct (shallow decls k (under decls e)) as [s|] eqn:E; [|discriminate]. rewrite (shallow_mono _ _ _ _ E).
    destruct s; [easy|]. destruct (by_ref (under decls e)); [|easy]. apply seq2_mono. intros y. apply wrap_mono.
Qed.

Lemma field_mono i f x : gen_field decls k b i f = Some x -> gen_field decls (S k) b' i f = Some x.
Proof.
  assert (Hd : forall y,
    match wrap (fun b0 => [SIfSome (in_f i) (SInOut (EAddr (in_f i)) (EAddr (out_f i)) :: b0)]) (b f)
    with Some (ss, es) => Some (ss, es, false) | None => None end = Some y ->
    match wrap (fun b0 => [SIfSome (in_f i) (SInOut (EAddr (in_f i)) (EAddr (out_f i)) :: b0)]) (b' f)
    with Some (ss, es) => Some (ss, es, false) | None => None end = Some y).
  { intros y. destruct (wrap _ (b f)) as [z|] eqn:E; [|discriminate]. now rewrite (wrap_mono _ _ _ E). }
  unfold gen_field. destruct (has_any decls f).
  - destruct (result_ptr decls k f (has_copy decls f)) as [r|] eqn:E; [|discriminate].
    rewrite (result_mono _ _ _ _ _ E). destruct (is_ptr f); [apply Hd|easy].
  - destruct (by_ref (under decls f)); [apply Hd|].
    destruct (under decls f) as [[|] ?| | | | | |]; try easy.
    destruct (shallow decls k f) as [s|] eqn:E; [|discriminate]. now rewrite (shallow_mono _ _ _ _ E).
Qed.

Lemma fields_mono fs : forall i x, gen_fields decls k b i fs = Some x -> gen_fields decls (S k) b' i fs = Some x.
Proof.
  induction fs as [|f fs IH]; intros i x; cbn [gen_fields]; [easy|].
  destruct (gen_field decls k b i f) as [y|] eqn:E; [|discriminate]. rewrite (field_mono _ _ _ E).
  destruct y as [[ss es] [|]]; [easy|]. apply seq2_mono. intros z. apply IH.
Qed.

Lemma step_mono t x : gen_step decls k b t = Some x -> gen_step decls (S k) b' t = Some x.
Proof.
  unfold gen_step. destruct (negb _ && _); [easy|].
  destruct (under decls t); try easy; [apply pointer_mono|apply slice_mono|apply map_mono|].
  unfold gen_struct. apply seq2_mono. intros y. apply fields_mono.
Qed.
End Mono.

Lemma block_mono decls : forall k t x, gen_block decls k t = Some x -> gen_block decls (S k) t = Some x.
Proof.
  induction k as [|k IH]; intros t x H; [discriminate H|].
  change (gen_step decls (S k) (gen_block decls (S k)) t = Some x).
  cbn [gen_block] in H. eapply step_mono; [|exact H]. exact IH.
Qed.

Lemma methods_mono decls k j n x : gen_methods decls k n = Some x -> gen_methods decls (j + k) n = Some x.
Proof.
  induction j as [|j IH]; intros H; [easy|]. specialize (IH H). clear H. cbn [Nat.add].
  unfold gen_methods in *. destruct (d_into (decls n)); [easy|]. destruct (d_copy (decls n)) as [[|]|]; try easy.
  destruct (gen_block decls (j + k) (TNamed n)) as [y|] eqn:E; [|discriminate IH].
  now rewrite (block_mono _ _ _ _ E).
Qed.
