(** * The generated code compiles *)

From Coq Require Import String List Bool Arith Lia.
Import ListNotations.
From Verif Require Import GoLib DeepModel DeepSpec DeepProofs DeepProofs2 DeepProofs3 DeepTypes.
Open Scope string_scope.
Open Scope nat_scope.
Open Scope list_scope.

Lemma ty_eqb_refl t : ty_eqb t t = true.
Proof.
  revert t. fix IH 1. intros t. destruct t; cbn; rewrite ?String.eqb_refl, ?Bool.eqb_reflx, ?IH; try easy.
  induction fs as [|f fs IHf]; [easy|]. now rewrite IH, IHf.
Qed.

Lemma ty_eqb_eq t : forall u, ty_eqb t u = true -> t = u.
Proof.
  revert t. fix IH 1. intros t u H. destruct t, u; try discriminate H; cbn in H.
  - apply andb_prop in H. destruct H as (H1 & H2). apply eqb_prop in H1. apply String.eqb_eq in H2. congruence.
  - apply String.eqb_eq in H. congruence.
  - f_equal. now apply IH.
  - f_equal. now apply IH.
  - apply andb_prop in H. destruct H as (H1 & H2). f_equal; now apply IH.
  - f_equal. revert fs fs0 H. fix IHl 1. intros fs gs H. destruct fs as [|f fs], gs as [|g gs]; try discriminate H; [easy|].
    apply andb_prop in H. destruct H as (H1 & H2). f_equal; [now apply IH|now apply IHl].
  - apply String.eqb_eq in H. congruence.
Qed.

Section Proofs.
Variable decls : string -> decl.
Variable M : string -> meths.
Hypothesis P : package decls M.
Let Hu := pk_under _ _ P.
Let chk := check decls M.
Let asg := assignable decls.

Lemma asg_refl t : asg t t = true.
Proof. unfold asg, assignable. now rewrite ty_eqb_refl. Qed.

Lemma asg_under v t : under decls v = under decls t -> named v = false \/ named t = false -> asg v t = true.
Proof.
  intros H Hn. unfold asg, assignable. rewrite H, ty_eqb_refl.
  destruct Hn as [-> | ->]; now rewrite ?orb_true_r.
Qed.

Lemma c_cons G s ss : chk G (s :: ss) = match check1 decls M G s with Some G1 => chk G1 ss | None => false end.
Proof. reflexivity. Qed.

Lemma c_set G l e t : tl decls G l = Some t -> may_assign decls M G e t = true -> check1 decls M G (SSet l e) = Some G.
Proof. intros H1 H2. cbn. now rewrite H1, H2. Qed.

Lemma c_setmap G l x e t kt k v : tl decls G l = Some t -> look G x = Some kt -> under decls t = TMap k v ->
  asg kt k = true -> may_assign decls M G e v = true -> check1 decls M G (SSetMap l x e) = Some G.
Proof. intros H1 H2 H3 H4 H5. cbn. unfold asg in H4. now rewrite H1, H2, H3, H4, H5. Qed.

Lemma c_ifsome G l b t : tl decls G l = Some t -> by_ref (under decls t) = true -> chk G b = true ->
  check1 decls M G (SIfSome l b) = Some G.
Proof.
  intros H1 H2 H3. cbn. rewrite H1, H2.
  match goal with |- (if true && ?x then _ else _) = _ => change x with (chk G b) end. now rewrite H3.
Qed.

Lemma c_ifnil G l b1 b2 t : tl decls G l = Some t -> by_ref (under decls t) = true -> chk G b1 = true -> chk G b2 = true ->
  check1 decls M G (SIfNil l b1 b2) = Some G.
Proof.
  intros H1 H2 H3 H4. cbn. rewrite H1, H2.
  match goal with |- (if true && ?x && ?y then _ else _) = _ => change x with (chk G b1); change y with (chk G b2) end.
  now rewrite H3, H4.
Qed.

Lemma c_formap G l b t k e : tl decls G l = Some t -> under decls t = TMap k e ->
  chk (("key", k) :: ("val", e) :: G) b = true -> check1 decls M G (SForMap l b) = Some G.
Proof.
  intros H1 H2 H3. cbn. rewrite H1, H2.
  match goal with |- (if ?x then _ else _) = _ => change x with (chk (("key", k) :: ("val", e) :: G) b) end.
  now rewrite H3.
Qed.

Lemma c_forslice G l b t e : tl decls G l = Some t -> under decls t = TSlice e ->
  chk (("i", int_ty) :: G) b = true -> check1 decls M G (SForSlice l b) = Some G.
Proof.
  intros H1 H2 H3. cbn. rewrite H1, H2.
  match goal with |- (if ?x then _ else _) = _ => change x with (chk (("i", int_ty) :: G) b) end.
  now rewrite H3.
Qed.

Lemma c_into G l e t n : tl decls G l = Some t -> target decls t = Some n -> into_exists M n = true ->
  may_assign decls M G e (TPtr (TNamed n)) = true -> check1 decls M G (SInto l e) = Some G.
Proof. intros H1 H2 H3 H4. cbn. now rewrite H1, H2, H3, H4. Qed.

Lemma c_inout G e1 e2 t1 t2 : etype decls M G e1 = Some t1 -> etype decls M G e2 = Some t2 ->
  check1 decls M G (SInOut e1 e2) = Some (("in", t1) :: ("out", t2) :: G).
Proof. intros H1 H2. cbn [check1]. now rewrite H1, H2. Qed.

Lemma ma_type G e t v : etype decls M G e = Some v -> asg v t = true -> may_assign decls M G e t = true.
Proof. intros H1 H2. unfold may_assign. destruct e; try (now rewrite H1). discriminate H1. Qed.

(** [in] and [out] for a value of type [T]. *)
Definition sctx (G : tenv) (T Ti To : ty) : Prop :=
  (exists vt, look G "in" = Some vt /\ under decls vt = TPtr Ti) /\
  (exists vt, look G "out" = Some vt /\ under decls vt = TPtr To) /\
  under decls Ti = under decls T /\ under decls To = under decls T /\
  asg T To = true /\ asg Ti To = true.

Section Ctx.
Variables (G : tenv) (T Ti To : ty).
Hypothesis C : sctx G T Ti To.
Lemma s_in : tl decls G star_in = Some Ti.
Proof. destruct C as ((vt & H1 & H2) & _). cbn [tl star_in]. now rewrite H1, H2. Qed.
Lemma s_out : tl decls G star_out = Some To.
Proof. destruct C as (_ & (vt & H1 & H2) & _). cbn [tl star_out]. now rewrite H1, H2. Qed.
Lemma s_ti : under decls Ti = under decls T.
Proof. apply C. Qed.
Lemma s_to : under decls To = under decls T.
Proof. apply C. Qed.
Lemma s_asg : asg T To = true.
Proof. apply C. Qed.
Lemma s_io : asg Ti To = true.
Proof. apply C. Qed.
End Ctx.

Lemma s_more G T Ti To x t : sctx G T Ti To -> String.eqb "in" x = false -> String.eqb "out" x = false ->
  sctx ((x, t) :: G) T Ti To.
Proof.
  intros (C1 & C2 & C3) H1 H2. unfold sctx, look in *. cbn [mget]. rewrite H1, H2. easy.
Qed.

Lemma s_inout G T vt1 vt2 t1 t2 :
  under decls vt1 = TPtr t1 -> under decls vt2 = TPtr t2 ->
  under decls t1 = under decls T -> under decls t2 = under decls T ->
  asg T t2 = true -> asg t1 t2 = true ->
  sctx (("in", vt1) :: ("out", vt2) :: G) T t1 t2.
Proof.
  intros H1 H2 H3 H4 H5 H6. split; [now exists vt1|]. split; [now exists vt2|]. easy.
Qed.

(** ** Facts about types *)

Lemma under_idem e : under decls (under decls e) = under decls e.
Proof. destruct e; try easy. cbn [under]. now rewrite <- (under_under decls Hu n). Qed.

Lemma ref_unnamed t : by_ref t = true -> named t = false.
Proof. now destruct t. Qed.

Lemma p_callable n : has_any decls (TNamed n) = true ->
  into_exists M n = true /\
  on_ptr M n = Some (match d_copy (decls n) with Some p => p | None => ptr_receiver decls (TNamed n) end).
Proof. intros H. apply (pk_need _ _ P). now apply need_any. Qed.

Lemma p_not_ptr n : has_any decls (TNamed n) = true -> is_ptr (d_under (decls n)) = false.
Proof.
  intros H. destruct (d_under (decls n)) eqn:E; try easy.
  destruct (pk_ptr _ _ P n _ E) as (H1 & H2).
  unfold has_any, has_copy, has_into in H. cbn in H. rewrite H1, H2 in H. discriminate H.
Qed.

Lemma p_result_named g n r :
  is_ptr (d_under (decls n)) = false ->
  result_ptr0 decls g (TNamed n) = Some r -> r = ptr_receiver decls (TNamed n).
Proof.
  intros Hn H. destruct g as [|g]; [discriminate H|]. cbn in H.
  destruct g as [|g]; [discriminate H|]. unfold ptr_receiver. cbn in *.
  destruct (d_under (decls n)) eqn:E; try discriminate Hn; try (now injection H as <-).
  now destruct (Hu n n0).
Qed.

(** What the generator takes DeepCopy to return, for a type or a pointer to one. *)
Lemma p_result g e n r :
  method_base decls e = Some n -> has_any decls e = true -> (e = TNamed n \/ e = TPtr (TNamed n)) ->
  result_ptr decls g e (has_copy decls e) = Some r ->
  match has_copy decls e with Some p => p | None => r end = r /\
  on_ptr M n = Some r /\ into_exists M n = true.
Proof.
  intros Hm Ha He H.
  assert (Han : has_any decls (TNamed n) = true).
  { unfold has_any, has_copy, has_into in *. rewrite Hm in Ha. exact Ha. }
  destruct (p_callable n Han) as (Hi & Hp). assert (Hnp := p_not_ptr n Han).
  assert (Hhc : has_copy decls e = d_copy (decls n)) by (unfold has_copy; now rewrite Hm).
  rewrite Hhc in *. rewrite Hp. destruct (d_copy (decls n)) as [p|]; cbn [result_ptr] in H.
  - now injection H as <-.
  - split; [easy|]. split; [|easy]. f_equal. symmetry.
    destruct He as [He|He]; rewrite He in H.
    + eapply p_result_named; eauto.
    + destruct g as [|g]; [discriminate H|]. cbn [result_ptr0] in H. eapply p_result_named; eauto.
Qed.

Lemma p_base_named f : has_any decls f = true -> is_ptr f = false -> exists n, f = TNamed n.
Proof. unfold has_any, has_copy, has_into. destruct f; cbn; try discriminate; eauto. Qed.

Lemma p_base_ptr f : has_any decls f = true -> is_ptr f = true ->
  exists n, f = TPtr (TNamed n) /\ method_base decls f = Some n.
Proof.
  unfold has_any, has_copy, has_into. destruct f as [| |e| | | |]; try discriminate. intros H _.
  destruct e; cbn in *; try discriminate H. exists n. split; [easy|].
  now destruct (d_under (decls n)).
Qed.

Lemma p_struct f fs g :
  under decls f = TStruct fs -> (is_struct f -> flat decls f) -> shallow decls g f = Some false ->
  exists n, f = TNamed n /\ into_exists M n = true /\
            on_ptr M n = Some (match d_copy (decls n) with Some p => p | None => true end).
Proof.
  intros Hf Hs Hn. apply shallow_flat in Hn. cbn in Hn.
  destruct f; try discriminate Hf; cbn in Hf.
  - exists n. split; [easy|]. destruct (pk_need _ _ P n) as (H1 & H2).
    + right. right. split; [now exists fs|easy].
    + split; [easy|]. rewrite H2. unfold ptr_receiver. cbn. now rewrite Hf.
  - destruct Hn. apply Hs. now exists fs0.
Qed.

Lemma p_struct_under e fs g :
  under decls e = TStruct fs -> (is_struct e -> flat decls e) -> shallow decls g (under decls e) = Some false ->
  exists n, e = TNamed n /\ into_exists M n = true.
Proof.
  intros Hue Hstr Hshal.
  destruct (p_struct e fs (S g) Hue Hstr) as (n & Hn & Hi & _).
  - destruct e; try discriminate Hue; cbn in Hue; cbn [shallow]; [exact Hshal|].
    exfalso. apply shallow_flat in Hshal. cbn in Hshal. apply Hshal. apply Hstr. now exists fs0.
  - now exists n.
Qed.

Lemma p_static Ti e :
  under decls Ti = TPtr e -> (has_any decls e = true \/ (is_struct (under decls e) /\ ~ flat decls e)) -> Ti = TPtr e.
Proof.
  intros H Hor. destruct Ti; try discriminate H; [|now injection H as ->]. cbn in H.
  destruct (pk_named_ptr _ _ P _ _ H) as (H1 & H2).
  destruct Hor as [X1|(X1 & X2)]; [congruence|]. now destruct X2; apply H2.
Qed.

Lemma target_ptr n : is_ptr (d_under (decls n)) = false -> target decls (TPtr (TNamed n)) = Some n.
Proof. intros H. cbn. now destruct (d_under (decls n)). Qed.

Definition block_chk (body : list stmt) (e : ty) : Prop :=
  forall G Ti To, sctx G e Ti To -> chk G body = true.

Section Blocks.
Variable g : nat.
Hypothesis BLK : forall e body,
  gen_block decls g e = Some (body, []) -> cshape decls e ->
  (has_any decls e = true -> is_ptr (under decls e) = true) -> block_chk body e.

Lemma delegate_chk G li lo f fo body :
  tl decls G li = Some f -> tl decls G lo = Some fo -> f = fo ->
  by_ref (under decls f) = true -> block_chk body f ->
  check1 decls M G (SIfSome li (SInOut (EAddr li) (EAddr lo) :: body)) = Some G.
Proof.
  intros H1 H2 <- Hr Hb. eapply c_ifsome; eauto.
  rewrite c_cons, (c_inout _ _ _ (TPtr f) (TPtr f)) by (cbn [etype]; now rewrite ?H1, ?H2).
  apply (Hb _ f f). apply s_inout; try easy; apply asg_refl.
Qed.

Lemma into_chk G li lo n :
  tl decls G li = Some (TNamed n) -> tl decls G lo = Some (TNamed n) -> into_exists M n = true ->
  check1 decls M G (SInto li (EAddr lo)) = Some G.
Proof.
  intros H1 H2 H3. eapply c_into; eauto; [reflexivity|]. eapply ma_type; [|apply asg_refl].
  cbn [etype]. now rewrite H2.
Qed.

Lemma field_chk G T Ti To i fs f ss :
  sctx G T Ti To -> under decls T = TStruct fs -> nth_error fs i = Some f ->
  cshape decls f -> (is_struct f -> flat decls f) ->
  gen_field decls g (gen_block decls g) i f = Some (ss, [], false) ->
  forall rest, chk G (ss ++ rest) = chk G rest.
Proof.
  intros C HT Hf Hsh Hst H rest.
  assert (Hti : tl decls G (in_f i) = Some f).
  { unfold in_f. cbn [tl]. fold star_in. rewrite (s_in _ _ _ _ C), (s_ti _ _ _ _ C), HT. exact Hf. }
  assert (Hto : tl decls G (out_f i) = Some f).
  { unfold out_f. cbn [tl]. fold star_out. rewrite (s_out _ _ _ _ C), (s_to _ _ _ _ C), HT. exact Hf. }
  assert (Hone : forall s, check1 decls M G s = Some G -> chk G ([s] ++ rest) = chk G rest).
  { intros s Hs. cbn [app]. now rewrite c_cons, Hs. }
  assert (Hdel : forall ss', wrap (fun b0 => [SIfSome (in_f i) (SInOut (EAddr (in_f i)) (EAddr (out_f i)) :: b0)])
                   (gen_block decls g f) = Some (ss', []) -> by_ref (under decls f) = true ->
                 (has_any decls f = true -> is_ptr (under decls f) = true) ->
                 chk G (ss' ++ rest) = chk G rest).
  { intros ss' W Hr Hp. apply wrap_inv in W. destruct W as (body & Hb & ->). apply Hone.
    eapply delegate_chk; eauto. }
  unfold gen_field in H. destruct (has_any decls f) eqn:Ha.
  - destruct (result_ptr decls g f (has_copy decls f)) as [r|] eqn:Hr; [|discriminate H].
    destruct (is_ptr f) eqn:Hp.
    + destruct (wrap _ _) as [[ss' es']|] eqn:W; [|discriminate H]. injection H as -> ->.
      apply Hdel; [reflexivity| |intros _; now apply is_ptr_under]. now destruct f.
    + destruct (p_base_named f Ha Hp) as (n & ->).
      destruct (p_result g (TNamed n) n r eq_refl Ha (or_introl eq_refl) Hr) as (_ & Hon & Hi).
      destruct r; cbn in H; injection H as <-; apply Hone.
      * eapply into_chk; eauto.
      * eapply c_set; eauto. eapply ma_type; [|apply asg_refl]. cbn [etype]. rewrite Hti.
        unfold copy_ty. cbn [target method_base]. now rewrite Hon.
  - destruct (by_ref (under decls f)) eqn:Hb.
    + destruct (wrap _ _) as [[ss' es']|] eqn:W; [|discriminate H]. injection H as -> ->.
      apply Hdel; easy.
    + destruct (under decls f) as [bad s|m|e|e|mk me|ffs|s] eqn:Hun; try discriminate H.
      * destruct bad; [discriminate H|]. cbn in H. now injection H as <-.
      * destruct (shallow decls g f) as [[|]|] eqn:Hshal; [| |discriminate H];
          cbn in H; injection H as <-; apply Hone.
        -- eapply c_set; eauto. eapply ma_type; [|apply asg_refl]. exact Hti.
        -- destruct (p_struct f ffs g Hun Hst Hshal) as (n & -> & Hi & _). eapply into_chk; eauto.
Qed.

Lemma fields_chk G T Ti To fall :
  sctx G T Ti To -> under decls T = TStruct fall ->
  forall fs i ss, gen_fields decls g (gen_block decls g) i fs = Some (ss, []) ->
    (forall f, In f fs -> cshape decls f /\ (is_struct f -> flat decls f)) ->
    (forall j, nth_error fs j = nth_error fall (i + j)) -> chk G ss = true.
Proof.
  intros C HT. induction fs as [|f fs IHf]; intros i ss Hg Hsh Hfs.
  - injection Hg as <-. reflexivity.
  - cbn [gen_fields] in Hg. destruct (gen_field decls g (gen_block decls g) i f) as [[[s1 e1] stop]|] eqn:Hgf; [|discriminate Hg].
    destruct stop.
    { exfalso. injection Hg as -> ->. unfold gen_field in Hgf.
      destruct (has_any decls f).
      - destruct (result_ptr decls g f (has_copy decls f)); [|discriminate Hgf].
        destruct (if is_ptr f then _ else _) as [[? ?]|]; discriminate Hgf.
      - destruct (by_ref (under decls f)).
        + destruct (wrap _ _) as [[? ?]|]; discriminate Hgf.
        + destruct (under decls f) as [[|] ?| | | | | |]; try discriminate Hgf.
          destruct (shallow decls g f) as [[|]|]; discriminate Hgf. }
    apply seq2_inv in Hg. destruct Hg as (s1' & s2 & E1 & E2 & ->). injection E1 as -> ->.
    destruct (Hsh f (or_introl eq_refl)) as (Hs1 & Hs2).
    assert (Hfi : nth_error fall i = Some f).
    { specialize (Hfs 0). rewrite Nat.add_0_r in Hfs. now rewrite <- Hfs. }
    rewrite (field_chk G T Ti To i fall f s1' C HT Hfi Hs1 Hs2 Hgf).
    apply (IHf (S i) s2 E2).
    + intros f' Hf'. apply Hsh. now right.
    + intros j. specialize (Hfs (S j)). cbn [nth_error] in Hfs. rewrite Hfs. f_equal. lia.
Qed.

Lemma make_chk G T Ti To : sctx G T Ti To ->
  (exists e, under decls T = TSlice e) \/ (exists k e, under decls T = TMap k e) ->
  check1 decls M G (SSet star_out (EMake T star_in)) = Some G.
Proof.
  intros C HT. eapply c_set; [apply (s_out _ _ _ _ C)|]. eapply ma_type; [|apply (s_asg _ _ _ _ C)].
  unfold etype. rewrite (s_in _ _ _ _ C), (s_ti _ _ _ _ C).
  destruct HT as [(e & ->)|(k & e & ->)]; reflexivity.
Qed.

Lemma slice_chk T e body :
  under decls T = TSlice e -> cshape decls (TSlice e) ->
  gen_slice decls g (gen_block decls g) T e = Some (body, []) -> block_chk body T.
Proof.
  intros HT (Hsh & Hstr & Hptr) Hg G Ti To C.
  unfold gen_slice in Hg. apply seq2_inv in Hg. destruct Hg as (s1 & s2 & E1 & E2 & ->).
  unfold wr_ty in E1. injection E1 as <- _. cbn [app].
  rewrite c_cons, (make_chk _ _ _ _ C) by eauto.
  assert (C' : sctx (("i", int_ty) :: G) T Ti To) by now apply s_more.
  assert (Hti : tl decls (("i", int_ty) :: G) in_i = Some e).
  { unfold in_i. cbn [tl]. fold star_in. now rewrite (s_in _ _ _ _ C'), (s_ti _ _ _ _ C'), HT. }
  assert (Hto : tl decls (("i", int_ty) :: G) out_i = Some e).
  { unfold out_i. cbn [tl]. fold star_out. now rewrite (s_out _ _ _ _ C'), (s_to _ _ _ _ C'), HT. }
  assert (Hloop : forall sb, chk (("i", int_ty) :: G) sb = true -> chk G [SForSlice star_in sb] = true).
  { intros sb Hs. rewrite c_cons, (c_forslice G star_in sb Ti e); try easy.
    - apply (s_in _ _ _ _ C).
    - now rewrite (s_ti _ _ _ _ C). }
  destruct (has_any decls e) eqn:Ha.
  - injection E2 as <-. apply Hloop. destruct (p_base_named e Ha (Hptr eq_refl)) as (n & ->).
    rewrite c_cons, (into_chk _ in_i out_i n); try easy. now apply p_callable.
  - destruct (shallow decls g (under decls e)) as [[|]|] eqn:Hshal; [| |discriminate E2].
    + injection E2 as <-. rewrite c_cons. cbn [check1].
      rewrite (s_in _ _ _ _ C), (s_out _ _ _ _ C), (s_ti _ _ _ _ C), (s_to _ _ _ _ C), HT.
      now rewrite ty_eqb_refl.
    + apply wrap_inv in E2. destruct E2 as (sb & E2 & ->). apply Hloop.
      rewrite orb_false_r in E2. destruct (by_ref (under decls e)) eqn:Hbr.
      * apply wrap_inv in E2. destruct E2 as (body & Hbody & ->).
        rewrite c_cons, (delegate_chk _ in_i out_i e e body); try easy.
        apply BLK; [easy|easy|congruence].
      * destruct (under decls e) as [| | | | |fs|] eqn:Hue; try discriminate E2.
        injection E2 as <-. rewrite <- Hue in Hshal.
        destruct (p_struct_under e fs g Hue Hstr Hshal) as (n & -> & Hi).
        rewrite c_cons, (into_chk _ in_i out_i n); easy.
Qed.

Lemma pointer_chk T e body :
  under decls T = TPtr e -> cshape decls (TPtr e) ->
  gen_pointer decls g (gen_block decls g) e = Some (body, []) -> block_chk body T.
Proof.
  intros HT (Hsh & Hstr & Hptr & Href) Hg G Ti To C.
  assert (Hti := s_ti _ _ _ _ C). assert (Hto := s_to _ _ _ _ C). rewrite HT in Hti, Hto.
  assert (Hinto : forall v, v = TPtr e -> asg v To = true).
  { intros v ->. apply asg_under; [now rewrite Hto|now left]. }
  assert (Hnew : forall t rest, t = e -> chk G (SSet star_out (ENew t) :: rest) = chk G rest).
  { intros t rest ->. rewrite c_cons, (c_set G _ _ To); [easy|apply (s_out _ _ _ _ C)|].
    eapply ma_type; [reflexivity|]. now apply Hinto. }
  unfold gen_pointer in Hg. destruct (has_any decls e) eqn:Ha.
  - destruct (p_base_named e Ha (Hptr eq_refl)) as (n & ->).
    destruct (result_ptr decls g (TNamed n) (has_copy decls (TNamed n))) as [r|] eqn:Hr; [|discriminate Hg].
    destruct (p_result g (TNamed n) n r eq_refl Ha (or_introl eq_refl) Hr) as (Hr2 & Hon & Hi). rewrite Hr2 in Hg.
    assert (HTi : Ti = TPtr (TNamed n)) by (apply p_static; auto).
    assert (Hct : copy_ty decls M Ti = Some (if r then TPtr (TNamed n) else TNamed n)).
    { unfold copy_ty. rewrite HTi, (target_ptr n (p_not_ptr n Ha)), Hon. now destruct r. }
    assert (Het : etype decls M G (ECopy star_in) = Some (if r then TPtr (TNamed n) else TNamed n)).
    { cbn [etype]. now rewrite (s_in _ _ _ _ C). }
    destruct r; injection Hg as <-.
    + rewrite c_cons, (c_set G _ _ To); [easy|apply (s_out _ _ _ _ C)|].
      eapply ma_type; [exact Het|]. now apply Hinto.
    + rewrite c_cons. cbn [check1]. rewrite Het.
      assert (C' : sctx (("x", TNamed n) :: G) T Ti To) by now apply s_more.
      rewrite c_cons, (c_set _ _ _ To); [easy|apply (s_out _ _ _ _ C')|].
      eapply ma_type; [reflexivity|]. now apply Hinto.
  - destruct (shallow decls g (under decls e)) as [[|]|] eqn:Hshal; [| |discriminate Hg].
    + injection Hg as <- _. rewrite Hnew by easy.
      assert (Hl : forall l t, tl decls G l = Some t -> under decls t = TPtr e -> tl decls G (LStar2 l) = Some e).
      { intros l t H1 H2. cbn [tl]. now rewrite H1, H2. }
      rewrite c_cons, (c_set G _ _ e); [easy| |].
      * eapply Hl; [apply (s_out _ _ _ _ C)|easy].
      * eapply ma_type; [|apply asg_refl]. cbn [etype]. eapply Hl; [apply (s_in _ _ _ _ C)|easy].
    + destruct (by_ref (under decls e)) eqn:Hbr.
      * apply seq2_inv in Hg. destruct Hg as (s1 & s2 & E1 & E2 & ->).
        unfold wr_ty in E1. injection E1 as <- _. cbn [app].
        apply wrap_inv in E2. destruct E2 as (bd & Hbd & ->).
        destruct (Href eq_refl) as [X|Hue]; [congruence|].
        rewrite Hnew by easy. rewrite c_cons, (c_ifsome G _ _ e); try easy.
        -- cbn [tl]. now rewrite (s_in _ _ _ _ C), Hti.
        -- rewrite c_cons, (c_inout G _ _ Ti To); [|apply (s_in _ _ _ _ C)|apply (s_out _ _ _ _ C)].
           rewrite Hue in Hbd. assert (Hb : block_chk bd e) by (apply BLK; [easy|easy|congruence]).
           apply (Hb _ e e). apply s_inout; try easy; apply asg_refl.
      * destruct (under decls e) as [| | | | |fs|] eqn:Hue; try discriminate Hg.
        injection Hg as <- _. rewrite <- Hue in Hshal.
        destruct (p_struct_under e fs g Hue Hstr Hshal) as (n & -> & Hi).
        rewrite Hnew by easy.
        assert (HTi : Ti = TPtr (TNamed n)).
        { apply p_static; [easy|]. right. split; [rewrite Hue; now exists fs|].
          apply shallow_flat in Hshal. cbn in Hshal. intros X. apply Hshal. now inversion X. }
        rewrite c_cons, (c_into G _ _ Ti n); try easy.
        -- apply (s_in _ _ _ _ C).
        -- rewrite HTi. apply target_ptr. cbn in Hue. now rewrite Hue.
        -- eapply ma_type; [apply (s_out _ _ _ _ C)|]. apply asg_under; [now rewrite Hto|now right].
Qed.

Lemma map_chk T kt e body :
  under decls T = TMap kt e -> cshape decls (TMap kt e) ->
  gen_map decls g (gen_block decls g) T kt e = Some (body, []) -> block_chk body T.
Proof.
  intros HT (Hsh & Hstr) Hg G Ti To C.
  unfold gen_map in Hg. destruct (shallow decls g kt) as [[|]|] eqn:Hks; try discriminate Hg.
  apply seq2_inv in Hg. destruct Hg as (s1 & s2 & E1 & E2 & ->).
  unfold wr_ty in E1. injection E1 as <- _. cbn [app].
  rewrite c_cons, (make_chk _ _ _ _ C) by eauto.
  apply wrap_inv in E2. destruct E2 as (mb & Hmb & ->).
  rewrite c_cons, (c_formap G star_in mb Ti kt e); [easy|apply (s_in _ _ _ _ C)|now rewrite (s_ti _ _ _ _ C)|].
  set (G1 := ("key", kt) :: ("val", e) :: G).
  assert (C1 : sctx G1 T Ti To) by (unfold G1; apply s_more; [now apply s_more|easy..]).
  assert (Hset : forall G' kt' ex, sctx G' T Ti To -> look G' "key" = Some kt' -> asg kt' kt = true ->
            may_assign decls M G' ex e = true ->
            check1 decls M G' (SSetMap star_out "key" ex) = Some G').
  { intros G' kt' ex C' Hk Ha Hm. eapply c_setmap; [apply (s_out _ _ _ _ C')|exact Hk| |exact Ha|exact Hm].
    now rewrite (s_to _ _ _ _ C'). }
  assert (Hv : tl decls G1 (LVar "val") = Some e) by reflexivity.
  assert (Hone : forall ex, may_assign decls M G1 ex e = true -> chk G1 [SSetMap star_out "key" ex] = true).
  { intros ex Hm. rewrite c_cons, (Hset G1 kt); try easy. apply asg_refl. }
  unfold gen_map_body in Hmb. destruct (has_any decls e) eqn:Ha.
  - destruct (result_ptr decls g e (has_copy decls e)) as [r|] eqn:Hr; [|discriminate Hmb].
    destruct (is_ptr e) eqn:Hip.
    + destruct (p_base_ptr e Ha Hip) as (n & He & Hb).
      destruct (p_result g e n r Hb Ha (or_intror He) Hr) as (Hr2 & Hon & Hi). rewrite Hr2 in Hmb.
      assert (Hct : copy_ty decls M e = Some (if r then TPtr (TNamed n) else TNamed n)).
      { unfold copy_ty, target. rewrite Hb, Hon. now destruct r. }
      destruct r; injection Hmb as <-.
      * apply Hone. eapply ma_type; [cbn [etype]; rewrite Hv; exact Hct|]. rewrite He. apply asg_refl.
      * rewrite c_cons. change (check1 decls M G1 (SBlock [SLet "x" (ECopy (LVar "val")); SSetMap star_out "key" (EAddr (LVar "x"))]))
          with (if chk G1 [SLet "x" (ECopy (LVar "val")); SSetMap star_out "key" (EAddr (LVar "x"))] then Some G1 else None).
        replace (chk G1 [SLet "x" (ECopy (LVar "val")); SSetMap star_out "key" (EAddr (LVar "x"))]) with true; [easy|].
        symmetry. rewrite c_cons. cbn [check1 etype]. rewrite Hv, Hct.
        assert (C' : sctx (("x", TNamed n) :: G1) T Ti To) by now apply s_more.
        rewrite c_cons, (Hset _ kt); try easy; [apply asg_refl|].
        eapply ma_type; [reflexivity|]. rewrite He. apply asg_refl.
    + destruct (p_base_named e Ha Hip) as (n & He).
      assert (Hb : method_base decls e = Some n) by now rewrite He.
      destruct (p_result g e n r Hb Ha (or_introl He) Hr) as (Hr2 & Hon & Hi). rewrite Hr2 in Hmb.
      assert (Hct : copy_ty decls M e = Some (if r then TPtr (TNamed n) else TNamed n)).
      { unfold copy_ty, target. rewrite Hb, Hon. now destruct r. }
      destruct r; injection Hmb as <-; apply Hone.
      * eapply ma_type; [cbn [etype]; rewrite Hv, Hct; reflexivity|]. rewrite He. apply asg_refl.
      * eapply ma_type; [cbn [etype]; rewrite Hv; exact Hct|]. rewrite He. apply asg_refl.
  - destruct (shallow decls g e) as [[|]|] eqn:Hshal; [| |discriminate Hmb].
    + injection Hmb as <-. apply Hone. eapply ma_type; [exact Hv|apply asg_refl].
    + destruct (by_ref (under decls e)) eqn:Hbr.
      * apply seq2_inv in Hmb. destruct Hmb as (s1 & s2 & E1 & E2 & ->).
        unfold wr_ty in E1. injection E1 as <- _. cbn [app].
        apply wrap_inv in E2. destruct E2 as (bd & Hbd & ->).
        rewrite c_cons. cbn [check1]. set (G2 := ("outVal", under decls e) :: G1).
        assert (C2 : sctx G2 T Ti To) by now apply s_more.
        assert (Hb : block_chk bd e) by (apply BLK; [easy|easy|congruence]).
        assert (Hue : asg (under decls e) e = true).
        { apply asg_under; [apply under_idem|]. left. now apply ref_unnamed. }
        assert (Heu : asg e (under decls e) = true).
        { apply asg_under; [symmetry; apply under_idem|]. right. now apply ref_unnamed. }
        rewrite c_cons, (c_ifnil G2 _ _ _ e); try easy.
        -- rewrite c_cons, (Hset G2 kt); try easy. apply asg_refl.
        -- rewrite c_cons, (Hset G2 kt); try easy; [apply asg_refl].
        -- rewrite c_cons. cbn [check1 etype]. rewrite (s_in _ _ _ _ C2), (s_ti _ _ _ _ C2), HT.
           change (look G2 "key") with (Some kt). cbv iota. fold asg. rewrite asg_refl.
           rewrite c_cons, (c_inout _ _ _ (TPtr e) (TPtr (under decls e))) by reflexivity.
           apply (Hb _ e (under decls e)). apply s_inout; try easy. apply under_idem.
      * destruct (under decls e) as [| | | | |fs|] eqn:Hue; try discriminate Hmb. injection Hmb as <-.
        destruct (p_struct e fs g Hue Hstr Hshal) as (n & He & Hi & Hon). apply Hone.
        eapply (ma_type G1 _ e (TNamed n)); [|rewrite He; apply asg_refl].
        cbn [etype]. rewrite Hv. unfold copy_ty, target. rewrite He. cbn [method_base]. rewrite Hon.
        rewrite He in Ha. unfold has_any, has_copy in Ha. cbn in Ha.
        destruct (d_copy (decls n)); [discriminate Ha|]. reflexivity.
Qed.

End Blocks.

Lemma cshape_under T : cshape decls T -> cshape decls (under decls T).
Proof. destruct T; try easy. intros _. cbn. apply (pk_shape _ _ P). Qed.

Lemma cshape_fields fs : cshape decls (TStruct fs) ->
  forall f, In f fs -> cshape decls f /\ (is_struct f -> flat decls f).
Proof.
  cbn. induction fs as [|f fs IH]; intros H g Hg; [easy|]. destruct H as (H1 & H2).
  destruct Hg as [<-|Hg]; [easy|]. now apply IH.
Qed.

Lemma gen_block_chk g : forall e body,
  gen_block decls g e = Some (body, []) -> cshape decls e ->
  (has_any decls e = true -> is_ptr (under decls e) = true) -> block_chk body e.
Proof.
  induction g as [|g IHg]; intros e body Hg Hsh Hany; [discriminate Hg|].
  cbn [gen_block] in Hg. unfold gen_step in Hg.
  replace (negb (is_ptr (under decls e)) && has_any decls e) with false in Hg
    by (destruct (has_any decls e); [rewrite (Hany eq_refl)|]; now rewrite ?andb_false_r).
  apply cshape_under in Hsh.
  destruct (under decls e) as [bad s|n|e'|e'|kt e'|fs|s] eqn:Hue; try discriminate Hg.
  - destruct bad; [discriminate Hg|].
    assert (Hc : has_copy decls e = None).
    { unfold has_any in Hany. destruct (has_copy decls e); [|easy]. now specialize (Hany eq_refl). }
    rewrite Hc in Hg. injection Hg as <-. intros G Ti To C.
    rewrite c_cons, (c_set G _ _ To); [easy|apply (s_out _ _ _ _ C)|].
    eapply ma_type; [apply (s_in _ _ _ _ C)|apply (s_io _ _ _ _ C)].
  - eapply pointer_chk; eauto.
  - eapply slice_chk; eauto.
  - eapply map_chk; eauto.
  - intros G Ti To C. unfold gen_struct in Hg. apply seq2_inv in Hg. destruct Hg as (s1 & s2 & E1 & E2 & ->).
    injection E1 as <-. cbn [app].
    rewrite c_cons, (c_set G _ _ To); [|apply (s_out _ _ _ _ C)|].
    + eapply (fields_chk g IHg); eauto. now apply cshape_fields.
    + eapply ma_type; [apply (s_in _ _ _ _ C)|apply (s_io _ _ _ _ C)].
Qed.

Lemma methods_check k n m :
  gen_methods decls k n = Some (m, []) ->
  match m_into m with IntoGen _ body => chk (start_types n) body = true | _ => True end.
Proof.
  intros Hg. unfold gen_methods in Hg. destruct (d_into (decls n)) eqn:Hdi.
  { injection Hg as <-. exact I. }
  assert (Hany : d_copy (decls n) <> None -> has_any decls (TNamed n) = true).
  { intros H. unfold has_any, has_copy. cbn. now destruct (d_copy (decls n)). }
  assert (C : sctx (start_types n) (TNamed n) (TNamed n) (TNamed n)).
  { apply s_inout; try easy; apply asg_refl. }
  destruct (d_copy (decls n)) as [p|] eqn:Hdc.
  - assert (Ha : has_any decls (TNamed n) = true) by (apply Hany; discriminate).
    destruct (p_callable n Ha) as (_ & Hon). rewrite Hdc in Hon.
    assert (Hct : copy_ty decls M (TPtr (TNamed n)) = Some (if p then TPtr (TNamed n) else TNamed n)).
    { unfold copy_ty. rewrite (target_ptr n (p_not_ptr n Ha)), Hon. now destruct p. }
    assert (Het : etype decls M (start_types n) (ECopyVar "in") = Some (if p then TPtr (TNamed n) else TNamed n)).
    { unfold etype. change (look (start_types n) "in") with (Some (TPtr (TNamed n))). exact Hct. }
    destruct p; injection Hg as <-; cbn [m_into].
    + rewrite c_cons. unfold check1. rewrite Het.
      rewrite c_cons, (c_set _ _ _ (TNamed n)); [easy|reflexivity|].
      eapply ma_type; [|apply asg_refl]. reflexivity.
    + rewrite c_cons, (c_set _ _ _ (TNamed n)); [easy|reflexivity|].
      eapply ma_type; [exact Het|apply asg_refl].
  - destruct (gen_block decls k (TNamed n)) as [[bd es]|] eqn:Hgb; [|discriminate Hg].
    injection Hg as <- ->. cbn [m_into].
    apply (gen_block_chk k (TNamed n) bd Hgb I) with (Ti := TNamed n) (To := TNamed n); [|exact C].
    intros X. unfold has_any, has_copy, has_into in X. cbn in X. rewrite Hdc, Hdi in X. discriminate X.
Qed.

End Proofs.
