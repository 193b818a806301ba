(** * Single statements of the generated code *)

From Coq Require Import String List Bool Arith Permutation Lia.
Import ListNotations.
From Verif Require Import GoLib DeepModel DeepSpec DeepProofs DeepProofs2.
Open Scope string_scope.
Open Scope nat_scope.
Open Scope list_scope.

Section Proofs.
Variable decls : string -> decl.
Variable M : string -> meths.
Variable zero : ty -> val.
Variable ord : list (val * val) -> list (val * val).
Variable man : string -> heap -> val -> option (heap * val).
Hypothesis P : program decls M zero ord man.
Let Hu := pr_under _ _ _ _ _ P.

Section Calls.
Variable k : nat.
Variable B : nat.
Hypothesis IH : forall n t, size t < B -> into_ok decls M zero ord man k n t.
Let ik := into decls M zero ord man k.
Let X := exec_block decls M zero ord man ik.
Let xs := exec decls M zero ord man ik.
Let ev := eval decls M zero man ik.

(** ** Equations of the interpreter *)

Lemma x_cons E s ss h :
  X E (s :: ss) h = match xs E s h with Some (E1, h1) => X E1 ss h1 | None => None end.
Proof. reflexivity. Qed.

Definition keep (E : env) (r : option heap) : option (env * heap) :=
  match r with Some h1 => Some (E, h1) | None => None end.

Lemma x_set E l e h :
  xs E (SSet l e) h =
  match ev E e h with
  | Some (h1, v) => match eval_l E l h1 with
                    | Some a => keep E (hwrite h1 a v)
                    | None => None
                    end
  | None => None
  end.
Proof. reflexivity. Qed.

Lemma x_ifsome E l b h :
  xs E (SIfSome l b) h =
  match val_at E l h with
  | Some v => if is_nil v then Some (E, h) else keep E (X E b h)
  | None => None
  end.
Proof. reflexivity. Qed.

Lemma x_ifnil E l b1 b2 h :
  xs E (SIfNil l b1 b2) h =
  match val_at E l h with
  | Some v => keep E (X E (if is_nil v then b1 else b2) h)
  | None => None
  end.
Proof. reflexivity. Qed.

Lemma x_block E b h : xs E (SBlock b) h = keep E (X E b h).
Proof. reflexivity. Qed.

Lemma x_formap E l b h :
  xs E (SForMap l b) h =
  match tl decls (types_of E) l, val_at E l h with
  | Some t, Some v =>
      match under decls t, v with
      | TMap _ _, VNil => Some (E, h)
      | TMap kt e, VMapRef m =>
          match nth_error h m with
          | Some (VMapData kvs) =>
              keep E (each_entry
                        (fun kv h => X (("key", fst kv) :: ("val", snd kv) :: E) b h)
                        kt e (ord kvs) h)
          | _ => None
          end
      | _, _ => None
      end
  | _, _ => None
  end.
Proof. reflexivity. Qed.

Lemma x_forslice E l b h :
  xs E (SForSlice l b) h =
  match val_at E l h with
  | Some VNil => Some (E, h)
  | Some (VSlice _ _ len) =>
      keep E (each_index (fun i h => X (("i", BIdx i) :: E) b h) 0 len h)
  | _ => None
  end.
Proof. reflexivity. Qed.

Lemma x_into E l e h :
  xs E (SInto l e) h =
  match tl decls (types_of E) l, ev E e h with
  | Some t, Some (h1, VPtr b) =>
      match target decls t, is_ptr t, eval_l E l h1 with
      | Some n, false, Some a => keep E (ik n a b h1)
      | Some n, true, Some a =>
          match hread h1 a with
          | Some (VPtr a') => keep E (ik n a' b h1)
          | _ => None
          end
      | _, _, _ => None
      end
  | _, _ => None
  end.
Proof. reflexivity. Qed.

Lemma x_inout E e1 e2 h :
  xs E (SInOut e1 e2) h =
  match te decls M (types_of E) e1, te decls M (types_of E) e2, ev E e1 h with
  | Some t1, Some t2, Some (h1, v1) =>
      match ev E e2 h1 with
      | Some (h2, v2) => Some (("in", BVal t1 v1) :: ("out", BVal t2 v2) :: E, h2)
      | None => None
      end
  | _, _, _ => None
  end.
Proof. reflexivity. Qed.

Lemma x_let E x e h :
  xs E (SLet x e) h =
  match te decls M (types_of E) e, ev E e h with
  | Some t, Some (h1, v) => Some ((x, BCell t (List.length h1)) :: E, h1 ++ [v])
  | _, _ => None
  end.
Proof. reflexivity. Qed.

Lemma x_var E x t h :
  xs E (SVar x t) h = Some ((x, BCell t (List.length h)) :: E, h ++ [zero t]).
Proof. reflexivity. Qed.

Lemma x_setmap E l x e h :
  xs E (SSetMap l x e) h =
  match ev E e h with
  | Some (h1, v) =>
      match val_at E l h1, look E x with
      | Some (VMapRef m), Some (BVal _ k) =>
          match nth_error h1 m with
          | Some (VMapData kvs) => keep E (hwrite h1 (m, []) (VMapData (map_set kvs k v)))
          | _ => None
          end
      | _, _ => None
      end
  | None => None
  end.
Proof. reflexivity. Qed.

Lemma x_copy E l1 l2 h :
  xs E (SCopy l1 l2) h =
  match val_at E l1 h, val_at E l2 h with
  | Some v1, Some v2 => keep E (do_copy v1 v2 h)
  | _, _ => None
  end.
Proof. reflexivity. Qed.

(** ** Environments *)

Lemma look_types E x :
  look (types_of E) x = match look E x with Some b => Some (bind_ty b) | None => None end.
Proof.
  unfold look, types_of. induction E as [|[y b] E IHE]; [easy|].
  cbn. destruct (String.eqb x y) eqn:Exy; cbn; rewrite ?Exy; auto.
Qed.

(** [in] and [out] point at values of type [T] at [a] and [b]; [Ti] and [To] are
    their static types. *)
Definition ctx (E : env) (T Ti To : ty) (a b : addr) : Prop :=
  (exists vt, look E "in" = Some (BVal vt (VPtr a)) /\ under decls vt = TPtr Ti) /\
  (exists vt, look E "out" = Some (BVal vt (VPtr b)) /\ under decls vt = TPtr To) /\
  under decls Ti = under decls T /\ under decls To = under decls T.

Section Ctx.
Variables (E : env) (T Ti To : ty) (a b : addr).
Hypothesis C : ctx E T Ti To a b.

Lemma tl_in : tl decls (types_of E) star_in = Some Ti.
Proof.
  destruct C as ((vt & C1 & C2) & _). cbn [tl star_in].
  rewrite look_types, C1. cbn [bind_ty]. now rewrite C2.
Qed.
Lemma tl_out : tl decls (types_of E) star_out = Some To.
Proof.
  destruct C as (_ & (vt & C1 & C2) & _). cbn [tl star_out].
  rewrite look_types, C1. cbn [bind_ty]. now rewrite C2.
Qed.
Lemma el_in h : eval_l E star_in h = Some a.
Proof. destruct C as ((vt & C1 & _) & _). cbn [eval_l star_in]. now rewrite C1. Qed.
Lemma el_out h : eval_l E star_out h = Some b.
Proof. destruct C as (_ & (vt & C1 & _) & _). cbn [eval_l star_out]. now rewrite C1. Qed.
Lemma va_in h : val_at E star_in h = hread h a.
Proof. unfold val_at. now rewrite el_in. Qed.
Lemma va_out h : val_at E star_out h = hread h b.
Proof. unfold val_at. now rewrite el_out. Qed.
Lemma ev_in h v : hread h a = Some v -> ev E (ERead star_in) h = Some (h, v).
Proof. intros H. unfold ev, eval. now rewrite va_in, H. Qed.
Lemma ctx_ti : under decls Ti = under decls T.
Proof. apply C. Qed.
Lemma ctx_to : under decls To = under decls T.
Proof. apply C. Qed.
End Ctx.

Lemma ctx_more E T Ti To a b x bd :
  ctx E T Ti To a b -> String.eqb "in" x = false -> String.eqb "out" x = false ->
  ctx ((x, bd) :: E) T Ti To a b.
Proof.
  intros (C1 & C2 & C3) H1 H2. unfold ctx, look in *. cbn [mget]. rewrite H1, H2. easy.
Qed.

Lemma ctx_inout T vt1 vt2 t1 t2 a b E :
  under decls vt1 = TPtr t1 -> under decls vt2 = TPtr t2 ->
  under decls t1 = under decls T -> under decls t2 = under decls T ->
  ctx (("in", BVal vt1 (VPtr a)) :: ("out", BVal vt2 (VPtr b)) :: E) T t1 t2 a b.
Proof.
  intros H1 H2 H3 H4. split; [now exists vt1|]. split; [now exists vt2|]. easy.
Qed.

Lemma el_grows E l h h' a : grows h h' -> eval_l E l h = Some a -> eval_l E l h' = Some a.
Proof.
  intros Hg. revert a. induction l as [x|x|l IHl|l IHl i|l IHl x]; intros a H; cbn in *.
  - easy.
  - easy.
  - destruct (eval_l E l h) as [a1|] eqn:E1; [|discriminate H]. rewrite (IHl _ eq_refl).
    destruct (hread h a1) eqn:E2; [|discriminate H]. now rewrite (grows_read _ _ _ _ Hg E2).
  - destruct (eval_l E l h) as [a1|] eqn:E1; [|discriminate H]. now rewrite (IHl _ eq_refl).
  - destruct (eval_l E l h) as [a1|] eqn:E1; [|discriminate H]. rewrite (IHl _ eq_refl).
    destruct (look E x) as [[| |i]|]; try discriminate H.
    destruct (hread h a1) eqn:E2; [|discriminate H]. now rewrite (grows_read _ _ _ _ Hg E2).
Qed.

Lemma is_nil_true v : is_nil v = true -> v = VNil.
Proof. now destruct v. Qed.

(** ** Copying one part *)

(** [body] copies a value of type [e] from [in] to [out]. *)
Definition block_ok (body : list stmt) (e : ty) : Prop :=
  forall E Ti To h a b v t fp vb,
    ctx E e Ti To a b -> hread h a = Some v -> den decls h e v t fp -> is_nil v = false ->
    size t <= B -> ~ In (fst b) (fst a :: fp) -> hread h b = Some vb ->
    exists h', X E body h = Some h' /\ made decls h e t b h'.

Section Slot.
Variables (E : env) (li lo : lval) (sa da : addr) (h : heap) (e : ty).
Variables (v dv : val) (t : tree) (fp : list nat).
Hypothesis Htl : tl decls (types_of E) li = Some e.
Hypothesis Hli : eval_l E li h = Some sa.
Hypothesis Hlo : eval_l E lo h = Some da.
Hypothesis Hsa : hread h sa = Some v.
Hypothesis Hden : den decls h e v t fp.
Hypothesis Hsep : ~ In (fst da) (fst sa :: fp).
Hypothesis Hda : hread h da = Some dv.

Lemma slot_into n :
  e = TNamed n -> nil_safe decls n v -> into_exists M n = true -> size t < B ->
  exists h', xs E (SInto li (EAddr lo)) h = Some (E, h') /\ made decls h e t da h'.
Proof.
  intros -> Hn Hi Hs. rewrite x_into, Htl. unfold ev, eval. rewrite Hlo.
  cbn [target method_base is_ptr]. rewrite Hli.
  destruct (IH n t Hs h sa da v fp dv Hsa Hden Hn Hsep Hda Hi) as (h' & E' & Hm).
  exists h'. unfold ik. now rewrite E'.
Qed.

Lemma slot_read :
  flat decls e -> exists h', xs E (SSet lo (ERead li)) h = Some (E, h') /\ made decls h e t da h'.
Proof.
  intros Hf. rewrite x_set. unfold ev, eval, val_at. rewrite Hli, Hsa, Hlo.
  destruct (write_upd h da dv v Hda) as (h' & -> & U).
  exists h'. split; [easy|]. exists v, []. split; [easy|].
  assert (fp = []) as -> by (eapply flat_den; eauto).
  split; [|constructor]. eapply den_upd; eauto.
Qed.

Lemma slot_copy n :
  e = TNamed n -> on_ptr M n = Some false -> into_exists M n = true -> size t < B ->
  exists h', xs E (SSet lo (ECopy li)) h = Some (E, h') /\ made decls h e t da h'.
Proof.
  intros -> Hp Hi Hs. rewrite x_set. unfold ev, eval. rewrite Htl, Hli, Hsa.
  destruct (eval_copy_named decls M zero ord man P k B IH n h sa v t fp false Hp Hi Hsa Hden Hs)
    as (h1 & r & w & fp' & E1 & Hg & Hd & Hf & ->).
  unfold ik. rewrite E1. rewrite (el_grows _ _ _ _ _ Hg Hlo).
  destruct (write_upd h1 da dv w (grows_read _ _ _ _ Hg Hda)) as (h2 & -> & U).
  exists h2. split; [easy|]. exists w, fp'. split.
  - eapply grows_upd; eauto. eapply hread_loc; eauto.
  - split; [|easy]. eapply den_upd; eauto. intros Hin.
    rewrite Forall_forall in Hf. apply Hf in Hin. apply hread_loc in Hda. lia.
Qed.

Lemma slot_ref body eo :
  tl decls (types_of E) lo = Some eo -> under decls eo = under decls e ->
  block_ok body e -> size t <= B ->
  (is_nil v = true -> dv = VNil) ->
  exists h', xs E (SIfSome li (SInOut (EAddr li) (EAddr lo) :: body)) h = Some (E, h') /\
             made decls h e t da h'.
Proof.
  intros Htlo Ho Hb Hs Hnil. rewrite x_ifsome. unfold val_at. rewrite Hli, Hsa.
  destruct (is_nil v) eqn:En.
  - apply is_nil_true in En. assert (Hd := Hden). rewrite En in Hd.
    destruct (den_nil_ref _ _ _ _ _ Hd) as (_ & _ & Hfp).
    exists h. split; [easy|]. exists VNil, fp. split; [|split; [easy|rewrite Hfp; constructor]].
    split; [easy|]. split; [easy|].
    assert (Hx := Hda). rewrite (Hnil eq_refl) in Hx.
    unfold hread in Hx. destruct (nth_error h (fst da)) as [c|]; [|discriminate Hx].
    exists c, c. split; [easy|]. split; [easy|]. now apply put_same.
  - rewrite x_cons, x_inout. unfold te, ev, eval. rewrite Htl, Htlo, Hli, Hlo.
    destruct (Hb _ e eo h sa da v t fp dv
      (ctx_inout e (TPtr e) (TPtr eo) e eo sa da E eq_refl eq_refl eq_refl Ho) Hsa Hden En Hs Hsep Hda)
      as (h' & -> & Hm). now exists h'.
Qed.
End Slot.


(** ** Facts about types *)

Lemma any_named f : has_any decls f = true -> is_ptr f = false -> exists n, f = TNamed n.
Proof.
  unfold has_any, has_copy, has_into. destruct f; cbn; try discriminate; eauto.
Qed.

Lemma is_ptr_under f : is_ptr f = true -> is_ptr (under decls f) = true.
Proof. now destruct f. Qed.

Lemma any_callable n : has_any decls (TNamed n) = true ->
  into_exists M n = true /\
  on_ptr M n = Some (match d_copy (decls n) with
                     | Some p => p
                     | None => ptr_receiver decls (TNamed n)
                     end).
Proof. intros H. apply (pr_need _ _ _ _ _ P). now apply need_any. Qed.

Lemma any_not_ptr n : has_any decls (TNamed n) = true -> is_ptr (d_under (decls n)) = false.
Proof.
  intros H. destruct (d_under (decls n)) eqn:E; try easy.
  destruct (pr_ptr _ _ _ _ _ P n _ E) as (H1 & H2).
  unfold has_any, has_copy, has_into in H. cbn in H. rewrite H1, H2 in H. discriminate H.
Qed.

Lemma result_named g n r :
  is_ptr (d_under (decls n)) = false ->
  result_ptr0 decls g (TNamed n) = Some r -> r = ptr_receiver decls (TNamed n).
Proof.
  intros Hn H. destruct g as [|g]; [discriminate H|]. cbn in H.
  destruct g as [|g]; [discriminate H|]. unfold ptr_receiver. cbn in *.
  destruct (d_under (decls n)) eqn:E; try discriminate Hn; try (now injection H as <-).
  now destruct (Hu n n0).
Qed.

(** What the generator takes DeepCopy to return is what it does return. *)
Lemma result_any g n r :
  has_any decls (TNamed n) = true ->
  result_ptr decls g (TNamed n) (has_copy decls (TNamed n)) = Some r ->
  on_ptr M n = Some r /\ into_exists M n = true.
Proof.
  intros Ha H. destruct (any_callable n Ha) as (Hi & Hp). split; [|easy].
  unfold result_ptr, has_copy in H. cbn in H. rewrite Hp. f_equal.
  destruct (d_copy (decls n)); [now injection H as <-|].
  symmetry. eapply result_named; eauto. now apply any_not_ptr.
Qed.

(** A struct type that is not copied shallowly has methods. *)
Lemma struct_named f fs g :
  under decls f = TStruct fs -> (is_struct f -> flat decls f) ->
  shallow decls g f = Some false ->
  exists n, f = TNamed n /\ into_exists M n = true /\
            on_ptr M n = Some (match d_copy (decls n) with Some p => p | None => true end).
Proof.
  intros Hf Hs Hn. apply shallow_flat in Hn. cbn in Hn.
  destruct f; try discriminate Hf; cbn in Hf.
  - exists n. split; [easy|].
    destruct (pr_need _ _ _ _ _ P n) as (H1 & H2).
    + right. right. split; [now exists fs|easy].
    + split; [easy|]. rewrite H2. unfold ptr_receiver. cbn. now rewrite Hf.
  - destruct Hn. apply Hs. now exists fs0.
Qed.

Lemma struct_val h f fs v t fp :
  under decls f = TStruct fs -> den decls h f v t fp -> is_nil v = false.
Proof.
  intros Hf H. destruct v; try easy. apply den_nil_ref in H. rewrite Hf in H. now destruct H.
Qed.

(** ** Structs *)

Section Blocks.
Variable g : nat.
Hypothesis BLK : forall e body,
  gen_block decls g e = Some (body, []) -> shape decls M e ->
  (has_any decls e = true -> is_ptr (under decls e) = true) -> block_ok body e.

Lemma wrap_inv f r ss es : wrap f r = Some (ss, es) -> exists b, r = Some (b, es) /\ ss = f b.
Proof.
  destruct r as [[b es']|]; [|discriminate]. cbn. intros H. injection H as <- <-. now exists b.
Qed.

Lemma seq2_inv r1 r2 ss : seq2 r1 r2 = Some (ss, []) ->
  exists s1 s2, r1 = Some (s1, []) /\ r2 = Some (s2, []) /\ ss = s1 ++ s2.
Proof.
  destruct r1 as [[s1 e1]|]; [|discriminate]. destruct r2 as [[s2 e2]|]; [|discriminate].
  cbn. intros H. injection H as <- H. apply app_eq_nil in H. destruct H as (-> & ->). eauto.
Qed.

Section Field.
Variables (E : env) (T Ti To : ty) (a b : addr) (i : nat) (fs : list ty) (f : ty).
Variables (h : heap) (v dv : val) (t : tree) (fp : list nat).
Hypothesis C : ctx E T Ti To a b.
Hypothesis HT : under decls T = TStruct fs.
Hypothesis Hf : nth_error fs i = Some f.
Let sa : addr := (fst a, snd a ++ [i]).
Let da : addr := (fst b, snd b ++ [i]).
Hypothesis Hsa : hread h sa = Some v.
Hypothesis Hda : hread h da = Some v.
Hypothesis Hden : den decls h f v t fp.
Hypothesis Hsep : ~ In (fst b) (fst a :: fp).
Hypothesis Hs : size t < B.
Hypothesis Hshape : shape decls M f /\ (is_struct f -> flat decls f).

Lemma field_ok ss :
  gen_field decls g (gen_block decls g) i f = Some (ss, [], false) ->
  exists h1, (forall rest, X E (ss ++ rest) h = X E rest h1) /\ made decls h f t da h1.
Proof.
  intros H.
  assert (Hti : tl decls (types_of E) (in_f i) = Some f).
  { unfold in_f. cbn [tl]. fold star_in. rewrite (tl_in _ _ _ _ _ _ C), (ctx_ti _ _ _ _ _ _ C), HT. exact Hf. }
  assert (Hto : tl decls (types_of E) (out_f i) = Some f).
  { unfold out_f. cbn [tl]. fold star_out. rewrite (tl_out _ _ _ _ _ _ C), (ctx_to _ _ _ _ _ _ C), HT. exact Hf. }
  assert (Hei : eval_l E (in_f i) h = Some sa).
  { unfold in_f. cbn [eval_l]. fold star_in. now rewrite (el_in _ _ _ _ _ _ C). }
  assert (Heo : eval_l E (out_f i) h = Some da).
  { unfold out_f. cbn [eval_l]. fold star_out. now rewrite (el_out _ _ _ _ _ _ C). }
  assert (Hone : forall s, (exists h', xs E s h = Some (E, h') /\ made decls h f t da h') ->
    exists h1, (forall rest, X E ([s] ++ rest) h = X E rest h1) /\ made decls h f t da h1).
  { intros s (h' & E1 & Hm). exists h'. split; [|easy]. intros rest. cbn [app].
    rewrite x_cons. now rewrite E1. }
  assert (Hdel : forall ss', wrap (fun b0 => [SIfSome (in_f i) (SInOut (EAddr (in_f i)) (EAddr (out_f i)) :: b0)])
                   (gen_block decls g f) = Some (ss', []) ->
                 (has_any decls f = true -> is_ptr (under decls f) = true) ->
    exists h1, (forall rest, X E (ss' ++ rest) h = X E rest h1) /\ made decls h f t da h1).
  { intros ss' W Hp. apply wrap_inv in W. destruct W as (body & Hb & ->). apply Hone.
    eapply slot_ref; try eassumption; try easy.
    - now apply BLK.
    - lia.
    - apply is_nil_true. }
  unfold gen_field in H.
  destruct (has_any decls f) eqn:Ha.
  - destruct (result_ptr decls g f (has_copy decls f)) as [r|] eqn:Hr; [|discriminate H].
    destruct (is_ptr f) eqn:Hp.
    + destruct (wrap _ _) as [[ss' es']|] eqn:W; [|discriminate H].
      injection H as -> ->. apply Hdel; [reflexivity|]. intros _. now apply is_ptr_under.
    + destruct (any_named f Ha Hp) as (n & Hn). rewrite Hn in Ha, Hr.
      destruct (result_any _ _ _ Ha Hr) as (Hon & Hi).
      destruct r; cbn in H; injection H as <-; apply Hone.
      * eapply slot_into; try eassumption. now right.
      * eapply slot_copy; eassumption.
  - destruct (by_ref (under decls f)) eqn:Hb.
    + destruct (wrap _ _) as [[ss' es']|] eqn:W; [|discriminate H].
      injection H as -> ->. apply Hdel; [reflexivity|discriminate].
    + destruct (under decls f) as [bad s|m|e|e|mk me|ffs|s] eqn:Hun; try discriminate H.
      * destruct bad; [discriminate H|]. cbn in H. injection H as <-.
        exists h. split; [easy|]. exists v, fp. split.
        -- split; [easy|]. split; [easy|]. assert (Hx := Hda). unfold hread in Hx. fold da.
           destruct (nth_error h (fst da)) as [c|]; [|discriminate Hx].
           exists c, c. split; [easy|]. split; [easy|]. now apply put_same.
        -- split; [easy|]. assert (Hd := Hden). inversion Hd; subst; try congruence; constructor.
      * destruct (shallow decls g f) as [[|]|] eqn:Hsh; [| |discriminate H];
          cbn in H; injection H as <-; apply Hone.
        -- eapply slot_read; try eassumption. now apply shallow_flat in Hsh.
        -- destruct (struct_named f ffs g Hun (proj2 Hshape) Hsh) as (n & Hn & Hi & _).
           eapply slot_into; try eassumption. left. eapply struct_val; eauto.
Qed.
End Field.

Lemma fields_ok E T Ti To a b fall vall :
  ctx E T Ti To a b -> under decls T = TStruct fall -> 
  forall fs i ss h vrest wpre ts fps,
    gen_fields decls g (gen_block decls g) i fs = Some (ss, []) ->
    (forall f, In f fs -> shape decls M f /\ (is_struct f -> flat decls f)) ->
    (forall j, nth_error fs j = nth_error fall (i + j)) ->
    hread h a = Some (VAgg vall) -> (forall j, nth_error vrest j = nth_error vall (i + j)) ->
    hread h b = Some (VAgg (wpre ++ vrest)) -> List.length wpre = i ->
    dens decls h fs vrest ts fps -> ~ In (fst b) (fst a :: fps) ->
    list_sum (map size ts) < B ->
    exists h' wrest fps', X E ss h = Some h' /\ upd_to h b (VAgg (wpre ++ wrest)) h' /\
      dens decls h' fs wrest ts fps' /\ Forall (fun l => List.length h <= l) fps'.
Proof.
  intros C HT. induction fs as [|f fs IHf]; intros i ss h vrest wpre ts fps Hg Hsh Hfs Hra Hv Hrb Hl Hd Hsep Hsz.
  - injection Hg as <-. inversion Hd; subst. exists h, [], [].
    split; [easy|]. split; [|split; constructor].
    split; [easy|]. split; [easy|].
    assert (Hx := Hrb). unfold hread in Hx. destruct (nth_error h (fst b)) as [c|]; [|discriminate Hx].
    exists c, c. split; [easy|]. split; [easy|]. now apply put_same.
  - cbn [gen_fields] in Hg. destruct (gen_field decls g (gen_block decls g) i f) as [[[s1 e1] stop]|] eqn:Hgf; [|discriminate Hg].
    destruct stop.
    { exfalso. injection Hg as -> ->. unfold gen_field in Hgf.
      destruct (has_any decls f).
      - destruct (result_ptr decls g f (has_copy decls f)); [|discriminate Hgf].
        destruct (if is_ptr f then _ else _) as [[? ?]|]; discriminate Hgf.
      - destruct (by_ref (under decls f)).
        + destruct (wrap _ _) as [[? ?]|]; discriminate Hgf.
        + destruct (under decls f) as [[|] ?| | | | | |]; try discriminate Hgf.
          destruct (shallow decls g f) as [[|]|]; discriminate Hgf. }
    apply seq2_inv in Hg. destruct Hg as (s1' & s2 & E1 & E2 & ->). injection E1 as -> ->.
    inversion Hd as [|? ? v vrest' t ts' fp fps' Hdv Hds]; subst. cbn [map list_sum fold_right] in Hsz.
    change (size t + list_sum (map size ts') < B) in Hsz.
    set (i := List.length wpre) in *.
    assert (Hvi : nth_error vall i = Some v).
    { specialize (Hv 0). rewrite Nat.add_0_r in Hv. now rewrite <- Hv. }
    assert (Hwi : nth_error (wpre ++ v :: vrest') i = Some v).
    { rewrite nth_error_app2 by easy. unfold i. now rewrite Nat.sub_diag. }
    assert (Hfi : nth_error fall i = Some f).
    { specialize (Hfs 0). rewrite Nat.add_0_r in Hfs. now rewrite <- Hfs. }
    assert (Hsep1 : ~ In (fst b) (fst a :: fp)).
    { intros [X1|X1]; apply Hsep; [now left|right; apply in_or_app; now left]. }
    destruct (field_ok E T Ti To a b i fall f h v t fp C HT Hfi
                (read_inside _ _ _ _ _ Hra Hvi) (read_inside _ _ _ _ _ Hrb Hwi) Hdv Hsep1
                ltac:(lia) (Hsh f (or_introl eq_refl)) s1' Hgf) as (h1 & Hx & w & fp1 & U & Hd1 & Hf1).
    apply (upd_inside _ _ _ _ _ _ _ Hrb Hwi) in U. unfold i in U. rewrite set_nth_app in U.
    assert (Hb := upd_loc _ _ _ _ U). assert (Hlen := upd_len _ _ _ _ U).
    assert (Hra1 : hread h1 a = Some (VAgg vall)).
    { rewrite <- Hra. apply hread_same. eapply upd_other; eauto.
      - eapply hread_loc; eauto.
      - intros X1. apply Hsep. now left. }
    assert (Hds1 : dens decls h1 fs vrest' ts' fps').
    { eapply dens_upd; eauto. intros X1. apply Hsep. right. apply in_or_app. now right. }
    destruct (IHf (S i) s2 h1 vrest' (wpre ++ [w]) ts' fps' E2) as (h2 & wrest & fps2 & Hx2 & U2 & Hd2 & Hf2).
    + intros f' Hf'. apply Hsh. now right.
    + intros j. specialize (Hfs (S j)). cbn [nth_error] in Hfs. rewrite Hfs. f_equal. lia.
    + easy.
    + intros j. specialize (Hv (S j)). cbn [nth_error] in Hv. rewrite Hv. f_equal. lia.
    + rewrite <- app_assoc. cbn [app]. eapply upd_read; eauto.
    + rewrite app_length. cbn. unfold i. lia.
    + easy.
    + intros [X1|X1]; apply Hsep; [now left|right; apply in_or_app; now right].
    + lia.
    + rewrite <- app_assoc in U2. cbn [app] in U2.
      exists h2, (w :: wrest), (fp1 ++ fps2). split; [now rewrite Hx|].
      split; [eapply upd_upd; eauto|]. split.
      * constructor; [|easy]. eapply den_upd; eauto. intros X1.
        rewrite Forall_forall in Hf1. apply Hf1 in X1. lia.
      * apply Forall_app. split; [easy|]. eapply Forall_impl; [|exact Hf2]. cbn. lia.
Qed.

(** ** Slices *)

Lemma skipn_cons A (l : list A) j x : nth_error l j = Some x -> skipn j l = x :: skipn (S j) l.
Proof.
  revert j. induction l as [|y l IHl]; intros [|j] H; try discriminate H.
  - now injection H as ->.
  - cbn [skipn]. now apply IHl.
Qed.

Lemma flat_under e : flat decls (under decls e) -> flat decls e.
Proof. destruct e; cbn; try easy. now constructor. Qed.

Lemma dens_flat h e n vs ts fps :
  flat decls e -> dens decls h (repeat e n) vs ts fps -> fps = [].
Proof.
  intros Hf. revert vs ts fps. induction n as [|n IHn]; intros vs ts fps H; cbn in H; inversion H; subst; [easy|].
  replace fp with (@nil nat) by (symmetry; eapply flat_den; eauto). cbn. eapply IHn; eauto.
Qed.

Lemma sum_lt (t : tree) ts : list_sum (map size (t :: ts)) < B ->
  size t < B /\ list_sum (map size ts) < B.
Proof. change (list_sum (map size (t :: ts))) with (size t + list_sum (map size ts)). lia. Qed.

Section SliceLoop.
Variables (E : env) (T Ti To : ty) (a b base : addr) (off len m : nat) (e : ty) (sb : list stmt).
Hypothesis C : ctx E T Ti To a b.
Hypothesis HT : under decls T = TSlice e.

Definition slice_state (h : heap) : Prop :=
  hread h a = Some (VSlice base off len) /\ hread h b = Some (VSlice (m, []) 0 len).

Definition slice_step : Prop :=
  forall i h v t fp dv,
    slice_state h -> i < len ->
    hread h (fst base, snd base ++ [off + i]) = Some v -> den decls h e v t fp ->
    ~ In m (fst base :: fp) -> size t < B ->
    hread h (m, [i]) = Some dv -> (is_nil v = true -> dv = VNil) ->
    exists h1, X (("i", BIdx i) :: E) sb h = Some h1 /\ made decls h e t (m, [i]) h1.

Hypothesis STEP : slice_step.

Lemma slice_loop vs z : (by_ref (under decls e) = true -> z = VNil) ->
  forall n i h wpre ts fps,
    i + n = len -> slice_state h -> hread h base = Some (VAgg vs) -> off + len <= List.length vs ->
    hread h (m, []) = Some (VAgg (wpre ++ repeat z n)) -> List.length wpre = i ->
    dens decls h (repeat e n) (firstn n (skipn (off + i) vs)) ts fps ->
    ~ In m (fst a :: fst b :: fst base :: fps) -> list_sum (map size ts) < B ->
    exists h' wrest fps',
      each_index (fun i h => X (("i", BIdx i) :: E) sb h) i n h = Some h' /\
      upd_to h (m, []) (VAgg (wpre ++ wrest)) h' /\
      dens decls h' (repeat e n) wrest ts fps' /\ Forall (fun l => List.length h <= l) fps'.
Proof.
  intros Hz. induction n as [|n IHn]; intros i h wpre ts fps Hi Hst Hbase Hoff Hm Hl Hd Hsep Hsz.
  - inversion Hd; subst. exists h, [], []. split; [easy|]. split; [|split; constructor].
    split; [easy|]. split; [easy|].
    assert (Hx := Hm). unfold hread in Hx. cbn [fst snd] in *.
    destruct (nth_error h m) as [c|]; [|discriminate Hx].
    exists c, c. split; [easy|]. split; [easy|]. now apply put_same.
  - assert (Hlt : off + i < List.length vs) by lia.
    destruct (nth_error vs (off + i)) as [v|] eqn:Hv; [|apply nth_error_None in Hv; lia].
    rewrite (skipn_cons _ _ _ _ Hv) in Hd. cbn [firstn repeat] in Hd.
    inversion Hd as [|? ? ? ? t ts' fp fps' Hdv Hds]; subst ts fps. subst.
    apply sum_lt in Hsz. destruct Hsz as (Hs1 & Hs2). cbn [repeat] in Hm.
    set (i := List.length wpre) in *.
    assert (Hwi : nth_error (wpre ++ z :: repeat z n) i = Some z).
    { rewrite nth_error_app2 by easy. unfold i. now rewrite Nat.sub_diag. }
    assert (Hsep1 : ~ In m (fst base :: fp)).
    { intros [X1|X1]; apply Hsep; [right; right; now left|].
      right. right. right. apply in_or_app. now left. }
    destruct (STEP i h v t fp z Hst ltac:(lia) (read_inside _ _ _ _ _ Hbase Hv) Hdv Hsep1 Hs1
                (read_inside _ _ _ _ _ Hm Hwi)) as (h1 & Hx & w & fp1 & U & Hd1 & Hf1).
    { intros Hnil. apply is_nil_true in Hnil. subst v. apply Hz. eapply den_nil_ref; eauto. }
    apply (upd_inside h (m, []) i _ z w h1 Hm Hwi) in U. unfold i in U. rewrite set_nth_app in U.
    assert (Hb := upd_loc _ _ _ _ U). cbn [fst] in Hb. assert (Hlen := upd_len _ _ _ _ U).
    assert (Hrd : forall c vc, hread h c = Some vc -> fst c <> m -> hread h1 c = Some vc).
    { intros c vc Hc Hn. rewrite <- Hc. apply hread_same. eapply upd_other; eauto.
      eapply hread_loc; eauto. }
    destruct Hst as (Ha & Hbb).
    destruct (IHn (S i) h1 (wpre ++ [w]) ts' fps') as (h2 & wrest & fps2 & Hx2 & U2 & Hd2 & Hf2).
    + lia.
    + split; apply Hrd; try easy; intros X1; apply Hsep; [now left|right; now left].
    + apply Hrd; [easy|]. intros X1. apply Hsep. right. right. now left.
    + easy.
    + rewrite <- app_assoc. cbn [app]. eapply upd_read; eauto.
    + rewrite app_length. cbn. unfold i. lia.
    + replace (off + S i) with (S (off + i)) by lia. eapply dens_upd; eauto.
      intros X1. apply Hsep. right. right. right. apply in_or_app. now right.
    + intros [X1|[X1|[X1|X1]]]; apply Hsep; cbn [In]; try tauto.
      right. right. right. apply in_or_app. now right.
    + easy.
    + rewrite <- app_assoc in U2. cbn [app] in U2.
      exists h2, (w :: wrest), (fp1 ++ fps2).
      split; [cbn [each_index]; now rewrite Hx|].
      split; [eapply upd_upd; eauto|]. split.
      * cbn [repeat]. constructor; [|easy]. eapply den_upd; eauto. cbn [fst]. intros X1.
        rewrite Forall_forall in Hf1. apply Hf1 in X1. lia.
      * apply Forall_app. split; [easy|]. eapply Forall_impl; [|exact Hf2]. cbn. lia.
Qed.
End SliceLoop.

Section SliceSteps.
Variables (E : env) (T Ti To : ty) (a b base : addr) (off len m : nat) (e : ty).
Hypothesis C : ctx E T Ti To a b.
Hypothesis HT : under decls T = TSlice e.

Lemma slice_lvals i h : slice_state a b base off len m h -> i < len ->
  tl decls (types_of (("i", BIdx i) :: E)) in_i = Some e /\
  tl decls (types_of (("i", BIdx i) :: E)) out_i = Some e /\
  eval_l (("i", BIdx i) :: E) in_i h = Some (fst base, snd base ++ [off + i]) /\
  eval_l (("i", BIdx i) :: E) out_i h = Some (m, [i]).
Proof.
  intros (Ha & Hb) Hi.
  assert (C' : ctx (("i", BIdx i) :: E) T Ti To a b) by now apply ctx_more.
  unfold in_i, out_i. cbn [tl eval_l].
  rewrite (tl_in _ _ _ _ _ _ C'), (tl_out _ _ _ _ _ _ C'), (el_in _ _ _ _ _ _ C'), (el_out _ _ _ _ _ _ C').
  rewrite (ctx_ti _ _ _ _ _ _ C), (ctx_to _ _ _ _ _ _ C), HT, Ha, Hb.
  apply Nat.ltb_lt in Hi. cbn [look mget String.eqb]. unfold look. cbn -[Nat.ltb]. now rewrite Hi.
Qed.

Lemma slice_step_into n :
  e = TNamed n -> into_exists M n = true ->
  (has_any decls e = true \/ exists fs, under decls e = TStruct fs) ->
  slice_step E a b base off len m e [SInto in_i (EAddr out_i)].
Proof.
  intros He Hi Hn i h v t fp dv Hst Hlt Hv Hd Hsep Hs Hdv _.
  destruct (slice_lvals i h Hst Hlt) as (H1 & _ & H3 & H4).
  destruct (slot_into _ in_i out_i _ _ h e v dv t fp H1 H3 H4 Hv Hd Hsep Hdv n He) as (h1 & Hx & Hm).
  - destruct Hn as [Hn|(fs & Hn)]; [right; now rewrite <- He|]. left. eapply struct_val; eauto.
  - easy.
  - easy.
  - exists h1. split; [|easy]. rewrite x_cons. now rewrite Hx.
Qed.

Lemma slice_step_ref body :
  block_ok body e ->
  slice_step E a b base off len m e [SIfSome in_i (SInOut (EAddr in_i) (EAddr out_i) :: body)].
Proof.
  intros Hb i h v t fp dv Hst Hlt Hv Hd Hsep Hs Hdv Hnil.
  destruct (slice_lvals i h Hst Hlt) as (H1 & H2 & H3 & H4).
  destruct (slot_ref _ in_i out_i _ _ h e v dv t fp H1 H3 H4 Hv Hd Hsep Hdv body e H2 eq_refl Hb)
    as (h1 & Hx & Hm).
  - lia.
  - easy.
  - exists h1. split; [|easy]. rewrite x_cons. now rewrite Hx.
Qed.
End SliceSteps.

Lemma slice_ok T e body :
  under decls T = TSlice e -> shape decls M (TSlice e) ->
  gen_slice decls g (gen_block decls g) T e = Some (body, []) -> block_ok body T.
Proof.
  intros HT (Hsh & Hstr & Hptr) Hg E Ti To h a b v t fp vb C Hra Hd Hnn Hsz Hsep Hrb.
  unfold gen_slice in Hg. apply seq2_inv in Hg. destruct Hg as (s1 & s2 & E1 & E2 & ->).
  unfold wr_ty in E1. injection E1 as <- _. cbn [app].
  inversion Hd; subst; try (rewrite HT in *; discriminate); try discriminate Hnn;
    try (match goal with Q : exists b, under decls T = _ |- _ => destruct Q as (? & Q); congruence end).
  rewrite HT in H. injection H as <-. rename H0 into Hbase, H1 into Hoff, H2 into Hds.
  set (z := zero e). set (h1 := h ++ [VAgg (repeat z len)]). set (m := List.length h).
  assert (Hg1 : grows h h1) by apply grows_alloc.
  assert (Hbl := hread_loc _ _ _ Hrb). assert (Hal := hread_loc _ _ _ Hra).
  assert (Hbasel := hread_loc _ _ _ Hbase).
  destruct (write_upd h1 b vb (VSlice (m, []) 0 len) (grows_read _ _ _ _ Hg1 Hrb)) as (h2 & Hw & U2).
  assert (U : upd_to h b (VSlice (m, []) 0 len) h2) by (eapply grows_upd; eauto).
  assert (Hmake : forall rest, X E (SSet star_out (EMake T star_in) :: rest) h = X E rest h2).
  { intros rest. rewrite x_cons, x_set. unfold ev, eval. rewrite HT, (va_in _ _ _ _ _ _ C), Hra.
    cbn [alloc]. rewrite (el_out _ _ _ _ _ _ C). fold z h1 m. now rewrite Hw. }
  rewrite Hmake.
  assert (Hm2 : hread h2 (m, []) = Some (VAgg (repeat z len))).
  { rewrite <- (alloc_read h (VAgg (repeat z len))). fold h1 m. apply hread_same.
    eapply upd_other; [exact U2| |cbn [fst]; unfold m; lia].
    cbn [fst]. unfold h1, m. rewrite app_length. cbn. lia. }
  assert (Hlen1 : List.length h < List.length h1) by (unfold h1; rewrite app_length; cbn; lia).
  assert (Hlen2 := upd_len _ _ _ _ U2).
  assert (Hrd : forall c vc, hread h c = Some vc -> fst c <> fst b -> hread h2 c = Some vc).
  { intros c vc Hc Hn. rewrite <- Hc. apply hread_same. eapply upd_other; eauto. eapply hread_loc; eauto. }
  assert (Ha2 : hread h2 a = Some (VSlice base off len)).
  { apply Hrd; [easy|]. intros X1. apply Hsep. now left. }
  assert (Hbase2 : hread h2 base = Some (VAgg vs)).
  { apply Hrd; [easy|]. intros X1. apply Hsep. right. now left. }
  assert (Hds2 : dens decls h2 (repeat e len) (firstn len (skipn off vs)) ts fps).
  { eapply dens_upd; eauto. intros X1. apply Hsep. right. now right. }
  assert (Hmsep : ~ In m (fst a :: fst b :: fst base :: fps)).
  { intros [X1|[X1|[X1|X1]]]; unfold m in *; try lia.
    assert (Hq := dens_bound _ _ _ _ _ _ Hds _ X1). lia. }
  assert (Hszl : list_sum (map size ts) < B) by (cbn in Hsz; lia).
  assert (Hz : by_ref (under decls e) = true -> z = VNil) by apply (pr_zero _ _ _ _ _ P).
  assert (Hfin : forall h3 wrest fps', upd_to h2 (m, []) (VAgg wrest) h3 ->
            dens decls h3 (repeat e len) wrest ts fps' -> Forall (fun l => List.length h2 <= l) fps' ->
            made decls h T (RSlice ts) b h3).
  { intros h3 wrest fps' U3 Hd3 Hf3. exists (VSlice (m, []) 0 len), (m :: fps'). split; [|split].
    - eapply upd_upd_new; [exact U| |exact U3]. cbn. easy.
    - destruct (dens_each _ _ _ _ _ _ _ Hd3) as (Hlw & _).
      change (m :: fps') with (fst (m, @nil nat) :: fps').
      eapply den_slice; [exact HT|eapply upd_read; eauto|lia|].
      cbn [skipn]. now rewrite <- Hlw, firstn_all, Hlw.
    - constructor; [unfold m; lia|]. eapply Forall_impl; [|exact Hf3]. cbn. lia. }
  assert (Hloop : forall sb, slice_step E a b base off len m e sb ->
            exists h', X E [SForSlice star_in sb] h2 = Some h' /\ made decls h T (RSlice ts) b h').
  { intros sb Hstep.
    destruct (slice_loop E a b base off len m e sb Hstep vs z Hz len 0 h2 [] ts fps)
      as (h3 & wrest & fps' & Hx & U3 & Hd3 & Hf3); try easy.
    - split; [easy|]. eapply upd_read; eauto.
    - now rewrite Nat.add_0_r.
    - exists h3. split; [|eapply Hfin; eauto].
      rewrite x_cons, x_forslice, (va_in _ _ _ _ _ _ C), Ha2, Hx. easy. }
  destruct (has_any decls e) eqn:Ha.
  - injection E2 as <-. apply Hloop. destruct (any_named e Ha (Hptr eq_refl)) as (n & Hn).
    eapply slice_step_into; eauto. rewrite Hn in Ha. now apply any_callable.
  - destruct (shallow decls g (under decls e)) as [[|]|] eqn:Hshal; [| |discriminate E2].
    + injection E2 as <-. assert (Hf := shallow_flat _ _ _ _ Hshal). cbn in Hf. apply flat_under in Hf.
      rewrite x_cons, x_copy, (va_in _ _ _ _ _ _ C), (va_out _ _ _ _ _ _ C), Ha2, (upd_read _ _ _ _ U2).
      unfold do_copy. rewrite Hm2, Hbase2, Nat.min_id. cbn [firstn app].
      rewrite (skipn_all2 (repeat z len)) by (rewrite repeat_length; cbn; lia). rewrite app_nil_r.
      destruct (write_upd h2 (m, []) _ (VAgg (firstn len (skipn off vs))) Hm2) as (h3 & -> & U3).
      exists h3. split; [easy|]. assert (fps = []) as -> by (eapply dens_flat; eauto).
      eapply Hfin; [exact U3| |constructor]. eapply dens_upd; eauto.
    + apply wrap_inv in E2. destruct E2 as (sb & E2 & ->). apply Hloop.
      rewrite orb_false_r in E2. destruct (by_ref (under decls e)) eqn:Hbr.
      * apply wrap_inv in E2. destruct E2 as (body & Hbody & ->).
        eapply slice_step_ref; eauto. apply BLK; [easy|easy|congruence].
      * destruct (under decls e) as [| | | | |fs|] eqn:Hue; try discriminate E2.
        injection E2 as <-.
        assert (Hnf : shallow decls (S g) e = Some false).
        { destruct e; try discriminate Hue; cbn in Hue; cbn [shallow]; [now rewrite Hue|].
          exfalso. apply shallow_flat in Hshal. cbn in Hshal. apply Hshal. rewrite <- Hue.
          apply Hstr. now exists fs0. }
        destruct (struct_named e fs (S g) Hue Hstr Hnf) as (n & Hn & Hi & _).
        eapply slice_step_into; eauto.
Qed.

(** ** Pointers *)

Lemma ptr_static Ti e :
  under decls Ti = TPtr e -> (has_any decls e = true \/ (is_struct (under decls e) /\ ~ flat decls e)) ->
  Ti = TPtr e.
Proof.
  intros H Hor. destruct Ti; try discriminate H; [|now injection H as ->]. cbn in H.
  destruct (pr_named_ptr _ _ _ _ _ P _ _ H) as (H1 & H2).
  destruct Hor as [X1|(X1 & X2)]; [congruence|]. now destruct X2; apply H2.
Qed.

Lemma zero_under e : by_ref (under decls e) = true -> zero (under decls e) = VNil.
Proof.
  intros H. apply (pr_zero _ _ _ _ _ P). destruct e; try easy. cbn [under] in H.
  rewrite <- H. f_equal. cbn [under]. symmetry. rewrite <- (under_under decls Hu n). easy.
Qed.

Lemma pointer_ok T e body :
  under decls T = TPtr e -> shape decls M (TPtr e) ->
  gen_pointer decls g (gen_block decls g) e = Some (body, []) -> block_ok body T.
Proof.
  intros HT (Hsh & Hstr & Hptr) Hg E Ti To h a b v t fp vb C Hra Hd Hnn Hsz Hsep Hrb.
  assert (Hti := ctx_ti _ _ _ _ _ _ C). assert (Hto := ctx_to _ _ _ _ _ _ C). rewrite HT in Hti, Hto.
  inversion Hd as [| |T' e' p x t' fp' HT' Hrp Hdx| | |]; subst; try (rewrite HT in *; discriminate); try discriminate Hnn;
    try (match goal with Q : exists b, under decls T = _ |- _ => destruct Q as (? & Q); congruence end).
  rewrite HT in HT'. injection HT' as <-.
  assert (Hs : size t' < B) by (cbn in Hsz; lia).
  assert (Hbl := hread_loc _ _ _ Hrb).
  (* storing a pointer to a new copy *)
  assert (Hfin : forall h1 c w fpw, grows h h1 -> List.length h <= fst c -> hread h1 c = Some w ->
            den decls h1 e w t' fpw -> Forall (fun l => List.length h <= l) fpw ->
            exists h2, hwrite h1 b (VPtr c) = Some h2 /\ made decls h T (RPtr t') b h2).
  { intros h1 c w fpw Hg1 Hc Hw Hdw Hf.
    destruct (write_upd h1 b vb (VPtr c) (grows_read _ _ _ _ Hg1 Hrb)) as (h2 & E2 & U2).
    exists h2. split; [easy|]. exists (VPtr c), (fst c :: fpw). split; [|split].
    - eapply grows_upd; eauto.
    - assert (Hcl := hread_loc _ _ _ Hw). eapply den_ptr; [exact HT| |].
      + rewrite <- Hw. apply hread_same. eapply upd_other; eauto. lia.
      + eapply den_upd; eauto. intros X1. rewrite Forall_forall in Hf. apply Hf in X1. lia.
    - now constructor. }
  (* a new cell, its address stored first *)
  assert (Hnew : forall z, exists h2,
            hwrite (h ++ [z]) b (VPtr (List.length h, [])) = Some h2 /\
            upd_to h b (VPtr (List.length h, [])) h2 /\
            hread h2 (List.length h, []) = Some z /\ hread h2 a = Some (VPtr p) /\
            hread h2 p = Some x /\ den decls h2 e x t' fp' /\ hread h2 b = Some (VPtr (List.length h, []))).
  { intros z. assert (Hg1 := grows_alloc h z).
    destruct (write_upd (h ++ [z]) b vb (VPtr (List.length h, [])) (grows_read _ _ _ _ Hg1 Hrb)) as (h2 & E2 & U2).
    assert (U : upd_to h b (VPtr (List.length h, [])) h2) by (eapply grows_upd; eauto).
    exists h2. split; [easy|]. split; [easy|].
    assert (Hrd : forall c vc, hread h c = Some vc -> fst c <> fst b -> hread h2 c = Some vc).
    { intros c vc Hc Hn. rewrite <- Hc. apply hread_same. eapply upd_other; eauto. eapply hread_loc; eauto. }
    split.
    - rewrite <- (alloc_read h z). apply hread_same. eapply upd_other; [exact U2| |]; cbn [fst].
      + rewrite app_length. cbn. lia.
      + lia.
    - split; [apply Hrd; [easy|]; intros X1; apply Hsep; now left|].
      split; [apply Hrd; [easy|]; intros X1; apply Hsep; right; now left|].
      split; [eapply den_upd; eauto; intros X1; apply Hsep; right; now right|].
      eapply upd_read; eauto. }
  assert (Hset : forall z rest ty h2, zero ty = z ->
            hwrite (h ++ [z]) b (VPtr (List.length h, [])) = Some h2 ->
            X E (SSet star_out (ENew ty) :: rest) h = X E rest h2).
  { intros z rest ty h2 <- Hw. rewrite x_cons, x_set. unfold ev, eval, alloc.
    rewrite (el_out _ _ _ _ _ _ C). now rewrite Hw. }
  (* filling the new cell *)
  assert (Hfill : forall h2 h3, upd_to h b (VPtr (List.length h, [])) h2 ->
            made decls h2 e t' (List.length h, []) h3 -> made decls h T (RPtr t') b h3).
  { intros h2 h3 U (w & fpw & U3 & Hdw & Hf). assert (Hl := upd_len _ _ _ _ U).
    exists (VPtr (List.length h, [])), (List.length h :: fpw). split; [|split].
    - eapply upd_upd_new; [exact U| |exact U3]. cbn. lia.
    - change (List.length h) with (fst (List.length h, @nil nat)). eapply den_ptr; [exact HT| |exact Hdw].
      eapply upd_read; eauto.
    - constructor; [lia|]. eapply Forall_impl; [|exact Hf]. cbn. lia. }
  assert (Hsepn : ~ In (List.length h) (fst p :: fp')).
  { intros [X1|X1].
    - apply hread_loc in Hrp. lia.
    - assert (Hb2 := den_bound _ _ _ _ _ _ Hdx _ X1). lia. }
  unfold gen_pointer in Hg. destruct (has_any decls e) eqn:Ha.
  - destruct (any_named e Ha (Hptr eq_refl)) as (n & Hn). subst e.
    destruct (result_ptr decls g (TNamed n) (has_copy decls (TNamed n))) as [r|] eqn:Hr; [|discriminate Hg].
    destruct (result_any _ _ _ Ha Hr) as (Hon & Hi).
    assert (Hr2 : match has_copy decls (TNamed n) with Some p => p | None => r end = r).
    { destruct (has_copy decls (TNamed n)) as [q|] eqn:Hq; [|easy]. now injection Hr. }
    rewrite Hr2 in Hg.
    assert (HTi : Ti = TPtr (TNamed n)) by (apply ptr_static; auto).
    destruct (eval_copy_star decls M zero ord man P k B IH n h (Some a) p x t' fp' r Hon Hi (any_not_ptr n Ha) Hrp Hdx Hs)
      as (h1 & rv & w & fpw & Ecopy & Hg1 & Hdw & Hf & Hrv).
    assert (Hev : ev E (ECopy star_in) h = Some (h1, rv)).
    { unfold ev, eval. rewrite (tl_in _ _ _ _ _ _ C), (el_in _ _ _ _ _ _ C), Hra, HTi. exact Ecopy. }
    destruct r; cbn in Hg; injection Hg as <-.
    + destruct Hrv as (c & -> & Hc & Hw). rewrite x_cons, x_set, Hev, (el_out _ _ _ _ _ _ C).
      destruct (Hfin _ _ _ _ Hg1 Hc Hw Hdw Hf) as (h2 & -> & Hm). now exists h2.
    + subst rv. rewrite x_cons, x_let, Hev. unfold te. rewrite (tl_in _ _ _ _ _ _ C), HTi.
      unfold copy_ty, target, method_base.
      replace (match d_under (decls n) with TPtr _ => None | _ => Some n end) with (Some n)
        by (assert (Hz := any_not_ptr n Ha); now destruct (d_under (decls n))).
      rewrite Hon. set (E' := ("x", BCell (TNamed n) (List.length h1)) :: E).
      assert (C' : ctx E' T Ti To a b) by now apply ctx_more.
      rewrite x_cons, x_set. unfold ev, eval. cbn [eval_l look]. unfold look at 1. cbn [E' mget String.eqb Ascii.eqb Bool.eqb].
      rewrite (el_out _ _ _ _ _ _ C').
      destruct (Hfin (h1 ++ [w]) (List.length h1, []) w fpw) as (h2 & E2 & Hm).
      * eapply grows_trans; [exact Hg1|apply grows_alloc].
      * apply Hg1.
      * apply alloc_read.
      * eapply den_grows; [apply grows_alloc|easy].
      * easy.
      * rewrite E2. now exists h2.
  - destruct (shallow decls g (under decls e)) as [[|]|] eqn:Hshal; [| |discriminate Hg].
    + injection Hg as <- _. assert (Hf := shallow_flat _ _ _ _ Hshal). cbn in Hf. apply flat_under in Hf.
      destruct (Hnew (zero e)) as (h2 & Hw & U & Hn2 & Ha2 & Hp2 & Hdx2 & Hb2).
      rewrite (Hset _ _ _ _ eq_refl Hw). rewrite x_cons, x_set. unfold ev, eval, val_at. cbn [eval_l].
      rewrite (el_in _ _ _ _ _ _ C), Ha2, Hp2, (el_out _ _ _ _ _ _ C), Hb2.
      destruct (write_upd h2 (List.length h, []) _ x Hn2) as (h3 & -> & U3).
      exists h3. split; [easy|]. eapply Hfill; [exact U|]. exists x, [].
      assert (fp' = []) as -> by (eapply flat_den; eauto).
      split; [easy|]. split; [|constructor]. eapply den_upd; eauto.
    + destruct (by_ref (under decls e)) eqn:Hbr.
      * apply seq2_inv in Hg. destruct Hg as (s1 & s2 & E1 & E2 & ->).
        unfold wr_ty in E1. injection E1 as <- _. cbn [app].
        apply wrap_inv in E2. destruct E2 as (bd & Hbd & ->).
        destruct (Hnew (zero (under decls e))) as (h2 & Hw & U & Hn2 & Ha2 & Hp2 & Hdx2 & Hb2).
        rewrite (Hset _ _ _ _ eq_refl Hw). rewrite x_cons, x_ifsome. unfold val_at. cbn [eval_l].
        rewrite (el_in _ _ _ _ _ _ C), Ha2, Hp2. rewrite (zero_under e Hbr) in Hn2.
        destruct (is_nil x) eqn:Hnil.
        -- exists h2. split; [easy|]. apply is_nil_true in Hnil. subst x.
           destruct (den_nil_ref _ _ _ _ _ Hdx) as (_ & -> & ->).
           eapply Hfill; [exact U|]. exists VNil, [].
           split; [|split; [now constructor|constructor]].
           split; [easy|]. split; [easy|]. unfold hread in Hn2.
           destruct (nth_error h2 (fst (List.length h, @nil nat))) as [cc|]; [|discriminate Hn2].
           exists cc, cc. split; [easy|]. split; [easy|]. now apply put_same.
        -- rewrite x_cons, x_inout. unfold te. rewrite (tl_in _ _ _ _ _ _ C), (tl_out _ _ _ _ _ _ C).
           rewrite (ev_in _ _ _ _ _ _ C _ _ Ha2). unfold ev, eval. rewrite (va_out _ _ _ _ _ _ C), Hb2.
           assert (Huu : under decls (under decls e) = under decls e).
           { destruct e; try easy. cbn [under]. now rewrite <- (under_under decls Hu n). }
           assert (Hbok : block_ok bd (under decls e)).
           { apply BLK; [easy| |].
             - destruct e; cbn in *; try easy. apply (pr_shape _ _ _ _ _ P).
             - intros Hany. rewrite Huu.
               destruct (under decls e) eqn:Hue; cbn in Hbr |- *; try discriminate Hbr; try easy;
               unfold has_any, has_copy, has_into in Hany; cbn in Hany; discriminate Hany. }
           destruct (Hbok (("in", BVal Ti (VPtr p)) :: ("out", BVal To (VPtr (List.length h, []))) :: E)
                       e e h2 p (List.length h, []) x t' fp' VNil) as (h3 & Hx & Hm).
           ++ apply ctx_inout; easy.
           ++ easy.
           ++ eapply den_under; [|exact Hdx2]. now rewrite Huu.
           ++ easy.
           ++ lia.
           ++ easy.
           ++ easy.
           ++ rewrite Hx. exists h3. split; [easy|]. eapply Hfill; [exact U|].
              destruct Hm as (w & fpw & U3 & Hdw & Hf). exists w, fpw. split; [easy|]. split; [|easy].
              eapply den_under; [|exact Hdw]. easy.
      * destruct (under decls e) as [| | | | |fs|] eqn:Hue; try discriminate Hg.
        injection Hg as <- _.
        assert (Hnf : shallow decls (S g) e = Some false).
        { destruct e; try discriminate Hue; cbn in Hue; cbn [shallow]; [now rewrite Hue|].
          exfalso. apply shallow_flat in Hshal. cbn in Hshal. apply Hshal. rewrite <- Hue.
          apply Hstr. now exists fs0. }
        destruct (struct_named e fs (S g) Hue Hstr Hnf) as (n & Hn & Hi & _). subst e.
        assert (HTi : Ti = TPtr (TNamed n)).
        { apply ptr_static; [easy|]. right. split; [rewrite Hue; now exists fs|].
          apply shallow_flat in Hnf. easy. }
        destruct (Hnew (zero (TNamed n))) as (h2 & Hw & U & Hn2 & Ha2 & Hp2 & Hdx2 & Hb2).
        rewrite (Hset _ _ _ _ eq_refl Hw). rewrite x_cons, x_into.
        rewrite (tl_in _ _ _ _ _ _ C). unfold ev, eval. rewrite (va_out _ _ _ _ _ _ C), Hb2, HTi.
        unfold target, method_base. cbn in Hue. rewrite Hue. cbn [is_ptr].
        rewrite (el_in _ _ _ _ _ _ C), Ha2.
        assert (Hns : nil_safe decls n x).
        { left. eapply struct_val; [|exact Hdx]. cbn. exact Hue. }
        destruct (IH n t' Hs h2 p (List.length h, []) x fp' _ Hp2 Hdx2 Hns Hsepn Hn2 Hi) as (h3 & Hx & Hm).
        unfold ik. rewrite Hx. exists h3. split; [easy|]. eapply Hfill; eauto.
Qed.

(** ** Maps *)

Lemma in_fps_sum (L : list (val * tree)) : list_sum (map size (map snd L)) < B ->
  Forall (fun vt => size (snd vt) < B) L.
Proof.
  induction L as [|x L IHL]; intros H; constructor.
  - cbn [map] in H. apply sum_lt in H. easy.
  - cbn [map] in H. apply sum_lt in H. now apply IHL.
Qed.

Section MapLoop.
Variables (E : env) (T Ti To : ty) (a b : addr) (m0 m : nat) (kt e : ty) (mb : list stmt).
Variable kvs : list (val * val).
Hypothesis C : ctx E T Ti To a b.
Hypothesis HT : under decls T = TMap kt e.
Hypothesis Hnd : NoDup (map fst kvs).

Definition map_state (h : heap) : Prop :=
  hread h a = Some (VMapRef m0) /\ hread h b = Some (VMapRef m) /\
  nth_error h m0 = Some (VMapData kvs).

Definition menv (k : val) (c : nat) : env := ("key", BVal kt k) :: ("val", BCell e c) :: E.

(** An entry is added to the new map. *)
Definition entry_added (h : heap) (t : tree) (cur : list (val * val)) (k : val) (h1 : heap) : Prop :=
  exists w fp', upd_to h (m, []) (VMapData (cur ++ [(k, w)])) h1 /\
    den decls h1 e w t fp' /\ Forall (fun l => List.length h <= l) fp'.

Definition map_step : Prop :=
  forall h k v t fp c cur,
    map_state h -> In (k, v) kvs -> den decls h e v t fp -> size t < B -> val_eqb k k = true ->
    nth_error h m = Some (VMapData cur) -> ~ In k (map fst cur) ->
    ~ In m (fst a :: fst b :: m0 :: fp) -> hread h (c, []) = Some v ->
    exists h1, X (menv k c) mb h = Some h1 /\ entry_added h t cur k h1.

Hypothesis STEP : map_step.

Lemma map_loop : forall (L : list (val * val * tree)) h cur,
  map_state h -> nth_error h m = Some (VMapData cur) ->
  NoDup (map fst cur ++ map (fun r => fst (fst r)) L) ->
  ~ In m (fst a :: fst b :: [m0]) ->
  Forall (fun r => In (fst r) kvs /\ val_eqb (fst (fst r)) (fst (fst r)) = true /\ size (snd r) < B /\
            exists fp, den decls h e (snd (fst r)) (snd r) fp /\ ~ In m fp) L ->
  exists h' (R : list (val * val * tree)),
    each_entry (fun kv h => X (("key", fst kv) :: ("val", snd kv) :: E) mb h) kt e (map fst L) h = Some h' /\
    upd_to h (m, []) (VMapData (cur ++ map fst R)) h' /\
    map (fun r => (fst (fst r), snd r)) R = map (fun r => (fst (fst r), snd r)) L /\
    Forall (fun r => exists fp, den decls h' e (snd (fst r)) (snd r) fp /\
                                Forall (fun l => List.length h <= l) fp) R.
Proof.
  induction L as [|[[k0 v] t] L IHL]; intros h cur Hst Hm Hn Hsep HF.
  - exists h, []. cbn [map each_entry]. rewrite app_nil_r. split; [easy|]. split; [|now split].
    split; [easy|]. split; [easy|]. exists (VMapData cur), (VMapData cur). now split.
  - inversion HF as [|? ? (Hin & Hk & Hs & fp & Hd & Hmf) HF']; subst. cbn [fst snd] in *.
    assert (Hml : m < List.length h) by (apply nth_error_Some; congruence).
    destruct Hst as (Ha & Hb & H0).
    assert (Hg := grows_alloc h v).
    set (h0 := h ++ [v]) in *. set (c := List.length h).
    cbn [map app] in Hn. apply NoDup_remove in Hn. destruct Hn as (Hn1 & Hn2).
    destruct (STEP h0 k0 v t fp c cur) as (h1 & Hx & w & fp1 & U & Hd1 & Hf1).
    + split; [eapply grows_read; eauto|]. split; [eapply grows_read; eauto|].
      destruct Hg as (_ & Hg). rewrite Hg; [easy|]. apply nth_error_Some. congruence.
    + easy.
    + eapply den_grows; eauto.
    + easy.
    + easy.
    + destruct Hg as (_ & Hg). now rewrite Hg.
    + intros X1. apply Hn2. apply in_or_app. now left.
    + intros [X1|[X1|[X1|X1]]]; [apply Hsep..|]; cbn [In]; tauto.
    + apply alloc_read.
    + assert (U' : upd_to h (m, []) (VMapData (cur ++ [(k0, w)])) h1) by (eapply grows_upd; eauto).
      assert (Hlen := upd_len _ _ _ _ U'). assert (Hl0 : List.length h <= List.length h0) by apply Hg.
      assert (Hrd : forall c vc, hread h c = Some vc -> fst c <> m -> hread h1 c = Some vc).
      { intros c' vc Hc' Hne. rewrite <- Hc'. apply hread_same. eapply upd_other; eauto. eapply hread_loc; eauto. }
      destruct (IHL h1 (cur ++ [(k0, w)])) as (h2 & R & Hx2 & U2 & Hmap & HF2).
      * split; [apply Hrd; [easy|]; intros X1; apply Hsep; now left|].
        split; [apply Hrd; [easy|]; intros X1; apply Hsep; right; now left|].
        rewrite <- H0. eapply upd_other; [exact U'| |].
        -- apply nth_error_Some. congruence.
        -- cbn [fst]. intros X1. apply Hsep. right. right. now left.
      * assert (Hr := upd_read _ _ _ _ U'). unfold hread in Hr. cbn [fst snd] in Hr.
        destruct (nth_error h1 m); [|discriminate Hr]. now injection Hr as ->.
      * rewrite map_app. cbn [map fst]. rewrite <- app_assoc. cbn [app].
        apply NoDup_Add with (a := k0) (l := map fst cur ++ map (fun r => fst (fst r)) L).
        -- apply Add_app.
        -- now split.
      * easy.
      * eapply Forall_impl; [|exact HF']. intros r (I1 & I2 & I3 & fp2 & I4 & I5).
        split; [easy|]. split; [easy|]. split; [easy|]. exists fp2. split; [|easy].
        eapply den_upd; eauto.
      * exists h2, ((k0, w, t) :: R). cbn [map each_entry alloc fst snd].
        split; [|split; [|split]].
        -- fold h0 c. unfold menv in Hx. cbn [fst snd]. rewrite Hx. exact Hx2.
        -- rewrite <- app_assoc in U2. cbn [app] in U2. eapply upd_upd; eauto.
        -- now rewrite Hmap.
        -- constructor.
           ++ cbn [fst snd]. exists fp1. split.
              ** eapply den_upd; [exact U2| |exact Hd1]. cbn [fst]. intros X1.
                 rewrite Forall_forall in Hf1. apply Hf1 in X1. lia.
              ** eapply Forall_impl; [|exact Hf1]. cbn. lia.
           ++ eapply Forall_impl; [|exact HF2]. intros r (fp2 & I1 & I2). exists fp2. split; [easy|].
              eapply Forall_impl; [|exact I2]. cbn. lia.
Qed.

(** Storing the value of an expression in the new map. *)
Lemma map_store E' bk h kk ex h1 w t fp' cur :
  ctx E' T Ti To a b -> look E' "key" = Some (BVal bk kk) ->
  map_state h -> nth_error h m = Some (VMapData cur) -> ~ In kk (map fst cur) ->
  ev E' ex h = Some (h1, w) -> grows h h1 -> den decls h1 e w t fp' ->
  Forall (fun l => List.length h <= l) fp' ->
  exists h2, xs E' (SSetMap star_out "key" ex) h = Some (E', h2) /\ entry_added h t cur kk h2.
Proof.
  intros C' Hk (Ha & Hb & H0) Hm Hc He Hg Hd Hf.
  assert (Hml : m < List.length h) by (apply nth_error_Some; congruence).
  rewrite x_setmap, He, (va_out _ _ _ _ _ _ C'), (grows_read _ _ _ _ Hg Hb), Hk.
  assert (Hm1 : nth_error h1 m = Some (VMapData cur)) by (destruct Hg as (_ & Hg); now rewrite Hg).
  rewrite Hm1, (map_set_new _ _ _ Hc).
  destruct (write_upd h1 (m, []) (VMapData cur) (VMapData (cur ++ [(kk, w)]))) as (h2 & -> & U).
  { unfold hread. cbn [fst snd]. now rewrite Hm1. }
  exists h2. split; [easy|]. exists w, fp'. split; [eapply grows_upd; eauto|].
  split; [|easy]. eapply den_upd; eauto. cbn [fst]. intros X1. rewrite Forall_forall in Hf.
  apply Hf in X1. lia.
Qed.

End MapLoop.

Section MapSteps.
Variables (E : env) (T Ti To : ty) (a b : addr) (m0 m : nat) (kt e : ty).
Variable kvs : list (val * val).
Hypothesis C : ctx E T Ti To a b.
Hypothesis HT : under decls T = TMap kt e.
Hypothesis Hnd : NoDup (map fst kvs).
Let step mb := map_step E a b m0 m kt e mb kvs.

Lemma menv_ctx kk c : ctx (menv E kt e kk c) T Ti To a b.
Proof. unfold menv. apply ctx_more; [|easy..]. now apply ctx_more. Qed.

Lemma menv_val kk c h : eval_l (menv E kt e kk c) (LVar "val") h = Some (c, []).
Proof. reflexivity. Qed.

Lemma menv_tl kk c : tl decls (types_of (menv E kt e kk c)) (LVar "val") = Some e.
Proof. reflexivity. Qed.

(** A single assignment whose right hand side is evaluated to a copy. *)
Lemma step_expr ex :
  (forall h k v t fp c, den decls h e v t fp -> size t < B -> hread h (c, []) = Some v ->
     exists h1 w fp', ev (menv E kt e k c) ex h = Some (h1, w) /\ grows h h1 /\
       den decls h1 e w t fp' /\ Forall (fun l => List.length h <= l) fp') ->
  step [SSetMap star_out "key" ex].
Proof.
  intros Hex h k0 v t fp c cur Hst Hin Hd Hs Hk Hm Hc Hsep Hv.
  destruct (Hex h k0 v t fp c Hd Hs Hv) as (h1 & w & fp' & E1 & Hg & Hd' & Hf).
  destruct (map_store T Ti To a b m0 m e kvs (menv E kt e k0 c) kt h k0 ex h1 w t fp' cur
              (menv_ctx k0 c) eq_refl Hst Hm Hc E1 Hg Hd' Hf) as (h2 & E2 & Ha).
  exists h2. split; [|easy]. rewrite x_cons, E2. easy.
Qed.

Lemma step_read : flat decls e -> step [SSetMap star_out "key" (ERead (LVar "val"))].
Proof.
  intros Hf. apply step_expr. intros h k0 v t fp c Hd Hs Hv. exists h, v, fp.
  split; [unfold ev, eval, val_at; now rewrite menv_val, Hv|].
  split; [apply grows_refl|]. split; [easy|].
  replace fp with (@nil nat); [constructor|]. symmetry. eapply flat_den; eauto.
Qed.

Lemma step_copy n : e = TNamed n -> on_ptr M n = Some false -> into_exists M n = true ->
  step [SSetMap star_out "key" (ECopy (LVar "val"))].
Proof.
  intros He Hp Hi. apply step_expr. intros h k0 v t fp c Hd Hs Hv. rewrite He in Hd.
  destruct (eval_copy_named decls M zero ord man P k B IH n h (c, []) v t fp false Hp Hi Hv Hd Hs)
    as (h1 & r & w & fp' & E1 & Hg & Hd' & Hf & ->).
  exists h1, w, fp'. split; [|rewrite He; easy].
  unfold ev, eval. rewrite menv_tl, menv_val, Hv, He. exact E1.
Qed.

Lemma step_star n : e = TNamed n -> on_ptr M n = Some true -> into_exists M n = true ->
  step [SSetMap star_out "key" (EStarCopy (LVar "val"))].
Proof.
  intros He Hp Hi. apply step_expr. intros h k0 v t fp c Hd Hs Hv. rewrite He in Hd.
  destruct (eval_copy_named decls M zero ord man P k B IH n h (c, []) v t fp true Hp Hi Hv Hd Hs)
    as (h1 & r & w & fp' & E1 & Hg & Hd' & Hf & c' & -> & Hc & Hw).
  exists h1, w, fp'. split; [|rewrite He; easy].
  unfold ev, eval. rewrite menv_tl, menv_val, Hv, He. unfold ik. now rewrite E1, Hw.
Qed.

Lemma step_ptr n : e = TPtr (TNamed n) -> on_ptr M n = Some true -> into_exists M n = true ->
  is_ptr (d_under (decls n)) = false ->
  step [SSetMap star_out "key" (ECopy (LVar "val"))].
Proof.
  intros He Hp Hi Hnp. apply step_expr. intros h k0 v t fp c Hd Hs Hv. rewrite He in Hd.
  assert (Hev : ev (menv E kt e k0 c) (ECopy (LVar "val")) h =
                eval_copy decls M zero man ik (TPtr (TNamed n)) (Some (c, [])) v h).
  { unfold ev, eval. now rewrite menv_tl, menv_val, Hv, He. }
  rewrite Hev, He.
  inversion Hd as [T' s (q & Q)|T'|T' e' p x t' fp' HT' Hrp Hdx|T' ? ? ? ? ? ? ? Q|T' ? ? ? ? ? ? ? ? Q|T' ? ? ? ? Q];
    subst; try discriminate Q.
  - exists h, VNil, []. split; [|split; [apply grows_refl|split; [now constructor|constructor]]].
    unfold eval_copy, target, method_base. cbn [is_ptr].
    replace (match d_under (decls n) with TPtr _ => None | _ => Some n end) with (Some n)
      by (now destruct (d_under (decls n))).
    rewrite Hp. unfold call_copy. unfold on_ptr in Hp.
    destruct (m_copy (M n)) as [|q|q]; [discriminate Hp|..]; now injection Hp as ->.
  - cbn in HT'. injection HT' as <-. cbn in Hs.
    destruct (eval_copy_star decls M zero ord man P k B IH n h (Some (c, [])) p x t' fp' true Hp Hi Hnp Hrp Hdx ltac:(lia))
      as (h1 & r & w & fpw & E1 & Hg & Hd' & Hf & c' & -> & Hc & Hw).
    exists h1, (VPtr c'), (fst c' :: fpw). split; [exact E1|]. split; [easy|]. split.
    + eapply den_ptr; [reflexivity|exact Hw|exact Hd'].
    + now constructor.
Qed.

Lemma step_ref body : by_ref (under decls e) = true -> block_ok body e ->
  step [SVar "outVal" (under decls e);
        SIfNil (LVar "val") [SSetMap star_out "key" ENil]
          (SLet "inVal" (EMapAt star_in "key")
             :: SInOut (EAddr (LVar "inVal")) (EAddr (LVar "outVal")) :: body);
        SSetMap star_out "key" (ERead (LVar "outVal"))].
Proof.
  intros Hbr Hb h k0 v t fp c cur Hst Hin Hd Hs Hk Hm Hc Hsep Hv.
  destruct Hst as (Ha & Hbb & H0).
  assert (Hml : m < List.length h) by (apply nth_error_Some; congruence).
  rewrite x_cons, x_var. rewrite (zero_under e Hbr).
  set (h1 := h ++ [VNil]). set (co := List.length h).
  set (E1 := ("outVal", BCell (under decls e) co) :: menv E kt e k0 c).
  assert (C1 : ctx E1 T Ti To a b) by (unfold E1; apply ctx_more; [apply menv_ctx|easy..]).
  assert (Hg1 : grows h h1) by apply grows_alloc.
  assert (Hst1 : map_state a b m0 m kvs h1).
  { split; [eapply grows_read; eauto|]. split; [eapply grows_read; eauto|].
    destruct Hg1 as (_ & Hg1). rewrite Hg1; [easy|]. apply nth_error_Some. congruence. }
  assert (Hm1 : nth_error h1 m = Some (VMapData cur)) by (destruct Hg1 as (_ & Hg1'); now rewrite Hg1').
  assert (Hl1 : List.length h <= List.length h1) by apply Hg1.
  assert (Hfin : forall h2 w fp', grows h h2 -> hread h2 (co, []) = Some w -> den decls h2 e w t fp' ->
             Forall (fun l => List.length h <= l) fp' ->
             exists h3, X E1 [SSetMap star_out "key" (ERead (LVar "outVal"))] h2 = Some h3 /\
                        entry_added m e h t cur k0 h3).
  { intros h2 w fp' Hg2 Hr2 Hd2 Hf2.
    assert (Hst2 : map_state a b m0 m kvs h2).
    { split; [eapply grows_read; eauto|]. split; [eapply grows_read; eauto|].
      destruct Hg2 as (_ & Hg2). rewrite Hg2; [easy|]. apply nth_error_Some. congruence. }
    assert (Hm2 : nth_error h2 m = Some (VMapData cur)) by (destruct Hg2 as (_ & Hg2'); now rewrite Hg2').
    rewrite x_cons, x_setmap. unfold ev, eval.
    change (val_at E1 (LVar "outVal") h2) with (hread h2 (co, [])). rewrite Hr2.
    rewrite (va_out _ _ _ _ _ _ C1). destruct Hst2 as (_ & -> & _).
    change (look E1 "key") with (Some (BVal kt k0)). rewrite Hm2, (map_set_new _ _ _ Hc).
    destruct (write_upd h2 (m, []) (VMapData cur) (VMapData (cur ++ [(k0, w)]))) as (h3 & -> & U).
    { unfold hread. cbn [fst snd]. now rewrite Hm2. }
    exists h3. split; [easy|]. exists w, fp'. split; [eapply grows_upd; eauto|].
    split; [|easy]. eapply den_upd; eauto. cbn [fst]. intros X1. rewrite Forall_forall in Hf2.
    apply Hf2 in X1. lia. }
  rewrite x_cons, x_ifnil. 
  change (val_at E1 (LVar "val") h1) with (hread h1 (c, [])).
  rewrite (grows_read _ _ _ _ Hg1 Hv). destruct (is_nil v) eqn:Hnil.
  - apply is_nil_true in Hnil. subst v. destruct (den_nil_ref _ _ _ _ _ Hd) as (_ & -> & ->).
    destruct (map_store T Ti To a b m0 m e kvs E1 kt h1 k0 ENil h1 VNil RNil [] cur
                C1 eq_refl Hst1 Hm1 Hc eq_refl (grows_refl _) (den_nil _ _ _ Hbr) (Forall_nil _))
      as (h2 & E2 & w & fp' & U & Hdw & _).
    assert (Hx1 : X E1 [SSetMap star_out "key" ENil] h1 = Some h2) by (rewrite x_cons, E2; easy).
    rewrite Hx1. cbn [keep].
    assert (Hrd : forall c vc, hread h1 c = Some vc -> fst c <> m -> hread h2 c = Some vc).
    { intros c' vc Hc' Hne. rewrite <- Hc'. apply hread_same. eapply upd_other; eauto. eapply hread_loc; eauto. }
    rewrite x_cons, x_setmap. unfold ev, eval.
    change (val_at E1 (LVar "outVal") h2) with (hread h2 (co, [])).
    rewrite (Hrd (co, []) VNil) by (apply alloc_read || (cbn [fst]; unfold co; lia)).
    rewrite (va_out _ _ _ _ _ _ C1). destruct Hst1 as (_ & Hb1 & _).
    rewrite (Hrd _ _ Hb1) by (intros X1; apply Hsep; right; now left).
    change (look E1 "key") with (Some (BVal kt k0)).
    assert (Hr := upd_read _ _ _ _ U). unfold hread in Hr. cbn [fst snd] in Hr.
    destruct (nth_error h2 m) as [vm|] eqn:Hvm; [|discriminate Hr]. injection Hr as ->.
    rewrite (map_set_last _ _ _ _ Hc Hk).
    destruct (write_upd h2 (m, []) _ (VMapData (cur ++ [(k0, VNil)])) (upd_read _ _ _ _ U)) as (h3 & -> & U3).
    exists h3. split; [easy|]. exists VNil, []. split; [|split; [now constructor|constructor]].
    eapply grows_upd; [exact Hg1|easy|]. eapply upd_upd; eauto.
  - rewrite x_cons, x_let. unfold te, ev, eval.
    rewrite (tl_in _ _ _ _ _ _ C1), (ctx_ti _ _ _ _ _ _ C1), HT, (va_in _ _ _ _ _ _ C1).
    destruct Hst1 as (Ha1 & Hb1 & H01). rewrite Ha1. change (look E1 "key") with (Some (BVal kt k0)).
    rewrite H01, (map_at_in kvs k0 v Hnd Hin Hk).
    set (h2 := h1 ++ [v]). set (ci := List.length h1).
    assert (Hg2 : grows h1 h2) by apply grows_alloc.
    assert (Hci : co < ci) by (unfold ci, co, h1; rewrite app_length; cbn; lia).
    rewrite x_cons, x_inout. unfold te.
    set (E2 := ("inVal", BCell e ci) :: E1).
    change (tl decls (types_of E2) (LVar "inVal")) with (Some e).
    change (tl decls (types_of E2) (LVar "outVal")) with (Some (under decls e)).
    unfold ev, eval.
    change (eval_l E2 (LVar "inVal") h2) with (Some (ci, @nil nat)).
    change (eval_l E2 (LVar "outVal") h2) with (Some (co, @nil nat)).
    assert (Huu : under decls (under decls e) = under decls e).
    { destruct e; try easy. cbn [under]. now rewrite <- (under_under decls Hu n). }
    destruct (Hb (("in", BVal (TPtr e) (VPtr (ci, []))) :: ("out", BVal (TPtr (under decls e)) (VPtr (co, []))) :: E2)
                e (under decls e) h2 (ci, []) (co, []) v t fp VNil) as (h3 & Hx & w & fpw & U3 & Hdw & Hf).
    + now apply ctx_inout.
    + apply alloc_read.
    + eapply den_grows; [exact Hg2|]. eapply den_grows; eauto.
    + easy.
    + lia.
    + cbn [fst]. intros [X1|X1]; [lia|]. assert (Hq := den_bound _ _ _ _ _ _ Hd _ X1). unfold co in Hq. lia.
    + eapply grows_read; [exact Hg2|]. apply alloc_read.
    + change (eval_l E2 (LVar "outVal") h2) with (Some (co, @nil nat)). cbv iota beta. rewrite Hx. cbn [keep]. apply (Hfin h3 w fpw).
      * eapply grows_upd_new; [|cbn|exact U3]; [eapply grows_trans; eauto|]. easy.
      * eapply upd_read; eauto.
      * easy.
      * eapply Forall_impl; [|exact Hf]. cbn. intros l Hl. assert (List.length h1 <= List.length h2) by apply Hg2. lia.
Qed.

End MapSteps.

Lemma map_body_ok E T Ti To a b m0 m kt e kvs mb :
  ctx E T Ti To a b -> under decls T = TMap kt e -> NoDup (map fst kvs) -> shape decls M (TMap kt e) ->
  gen_map_body decls g (gen_block decls g) e = Some (mb, []) ->
  map_step E a b m0 m kt e mb kvs.
Proof.
  intros C HT Hnd (Hsh & Hstr & Hptr) Hg. unfold gen_map_body in Hg.
  destruct (has_any decls e) eqn:Ha.
  - destruct (is_ptr e) eqn:Hip.
    + destruct (Hptr eq_refl eq_refl) as (n & Hn & Hon).
      assert (Hnp : is_ptr (d_under (decls n)) = false).
      { destruct (d_under (decls n)) eqn:Hd; try easy. rewrite Hn in Ha.
        unfold has_any, has_copy, has_into in Ha. cbn in Ha. now rewrite Hd in Ha. }
      assert (Hmb : method_base decls e = Some n).
      { rewrite Hn. cbn. now destruct (d_under (decls n)). }
      assert (Han : has_any decls (TNamed n) = true).
      { unfold has_any, has_copy, has_into in *. rewrite Hmb in Ha. exact Ha. }
      destruct (any_callable n Han) as (Hi & Hon2).
      destruct (result_ptr decls g e (has_copy decls e)) as [r|] eqn:Hr; [|discriminate Hg].
      assert (Hrt : match has_copy decls e with Some p => p | None => r end = true).
      { rewrite Hon in Hon2. injection Hon2 as Hon2.
        assert (Hhc : has_copy decls e = d_copy (decls n)) by (unfold has_copy; now rewrite Hmb).
        rewrite Hhc in Hr |- *. destruct (d_copy (decls n)); [easy|]. cbn [result_ptr] in Hr.
        rewrite Hn in Hr. destruct g as [|g']; [discriminate Hr|]. cbn [result_ptr0] in Hr.
        rewrite (result_named _ _ _ Hnp Hr). easy. }
      rewrite Hrt in Hg. cbn in Hg. injection Hg as <-. eapply step_ptr; eauto.
    + destruct (any_named e Ha Hip) as (n & Hn). subst e.
      destruct (result_ptr decls g (TNamed n) (has_copy decls (TNamed n))) as [r|] eqn:Hr; [|discriminate Hg].
      destruct (result_any _ _ _ Ha Hr) as (Hon & Hi).
      assert (Hr2 : match has_copy decls (TNamed n) with Some p => p | None => r end = r).
      { destruct (has_copy decls (TNamed n)) as [q|] eqn:Hq; [|easy]. now injection Hr. }
      rewrite Hr2 in Hg. destruct r; cbn in Hg; injection Hg as <-.
      * eapply step_star; eauto.
      * eapply step_copy; eauto.
  - destruct (shallow decls g e) as [[|]|] eqn:Hshal; [| |discriminate Hg].
    + injection Hg as <-. eapply step_read; eauto. now apply shallow_flat in Hshal.
    + destruct (by_ref (under decls e)) eqn:Hbr.
      * apply seq2_inv in Hg. destruct Hg as (s1 & s2 & E1 & E2 & ->).
        unfold wr_ty in E1. injection E1 as <- _. cbn [app].
        apply wrap_inv in E2. destruct E2 as (bd & Hbd & ->).
        eapply step_ref; eauto. apply BLK; [easy|easy|congruence].
      * destruct (under decls e) as [| | | | |fs|] eqn:Hue; try discriminate Hg. injection Hg as <-.
        destruct (struct_named e fs g Hue Hstr Hshal) as (n & Hn & Hi & Hon). subst e.
        eapply step_star; eauto. rewrite Hon. unfold has_any, has_copy in Ha. cbn in Ha.
        now destruct (d_copy (decls n)).
Qed.

Lemma map_combine A A' (l : list A) (r : list A') : List.length l = List.length r ->
  map fst (combine l r) = l /\ map snd (combine l r) = r.
Proof.
  revert r. induction l as [|x l IHl]; intros [|y r] H; try discriminate H; [easy|].
  injection H as H. destruct (IHl r H) as (H1 & H2). cbn. now rewrite H1, H2.
Qed.

Lemma map_ok T kt e body :
  under decls T = TMap kt e -> shape decls M (TMap kt e) ->
  gen_map decls g (gen_block decls g) T kt e = Some (body, []) -> block_ok body T.
Proof.
  intros HT Hsh Hg E Ti To h a b v t fp vb C Hra Hd Hnn Hsz Hsep Hrb.
  unfold gen_map in Hg. destruct (shallow decls g kt) as [[|]|] eqn:Hks; try discriminate Hg.
  apply shallow_flat in Hks. cbn in Hks.
  apply seq2_inv in Hg. destruct Hg as (s1 & s2 & E1 & E2 & ->).
  unfold wr_ty in E1. injection E1 as <- _. cbn [app].
  apply wrap_inv in E2. destruct E2 as (mb & Hmb & ->).
  inversion Hd as [| | | |T' k' e' m0 kvs kvs' kts ts fps HT' H0 Hnd Hperm Hdk Hds|]; subst;
    try (rewrite HT in *; discriminate); try discriminate Hnn;
    try (match goal with Q : exists b, under decls T = _ |- _ => destruct Q as (? & Q); congruence end).
  rewrite HT in HT'. injection HT' as <- <-.
  set (m := List.length h). set (h1 := h ++ [VMapData []]).
  assert (Hg1 : grows h h1) by apply grows_alloc.
  assert (Hbl := hread_loc _ _ _ Hrb). assert (Hal := hread_loc _ _ _ Hra).
  assert (H0l : m0 < m) by (apply nth_error_Some; unfold m; congruence).
  destruct (write_upd h1 b vb (VMapRef m) (grows_read _ _ _ _ Hg1 Hrb)) as (h2 & Hw & U2).
  assert (U : upd_to h b (VMapRef m) h2) by (eapply grows_upd; eauto).
  rewrite x_cons, x_set. unfold ev, eval. rewrite HT, (va_in _ _ _ _ _ _ C), Hra.
  cbn [alloc]. rewrite (el_out _ _ _ _ _ _ C). fold h1 m. rewrite Hw. cbn [keep].
  assert (Hlen1 : List.length h < List.length h1) by (unfold h1; rewrite app_length; cbn; lia).
  assert (Hlen2 := upd_len _ _ _ _ U2).
  assert (Hm2 : nth_error h2 m = Some (VMapData [])).
  { rewrite <- (alloc_nth h (VMapData [])). fold h1 m. eapply upd_other; [exact U2| |unfold m; lia].
    unfold m. lia. }
  assert (Ha2 : hread h2 a = Some (VMapRef m0)).
  { rewrite <- Hra. apply hread_same. eapply upd_other; eauto. intros X1. apply Hsep. now left. }
  assert (Hb2 := upd_read _ _ _ _ U2).
  assert (H02 : nth_error h2 m0 = Some (VMapData kvs)).
  { rewrite <- H0. eapply upd_other; eauto. intros X1. apply Hsep. right. now left. }
  assert (Hds2 : dens decls h2 (repeat e (List.length kvs')) (map snd kvs') ts fps).
  { eapply dens_upd; eauto. intros X1. apply Hsep. right. now right. }
  assert (Hdk2 : dens decls h2 (repeat kt (List.length kvs')) (map fst kvs') kts []).
  { eapply dens_upd; eauto. }
  assert (Hmf : ~ In m fps).
  { intros X1. assert (Hq := dens_bound _ _ _ _ _ _ Hds _ X1). unfold m in Hq. lia. }
  assert (Hstep := map_body_ok E T Ti To a b m0 m kt e kvs mb C HT Hnd Hsh Hmb).
  (* entries with their trees *)
  destruct (dens_each _ _ _ _ _ _ _ Hds2) as (_ & LV & HLV1 & HLV2 & HLVF).
  destruct (dens_each _ _ _ _ _ _ _ Hdk2) as (_ & LK & HLK1 & HLK2 & HLKF).
  assert (Hlts : List.length kvs' = List.length ts).
  { rewrite <- HLV2, <- (map_length snd kvs'), <- HLV1. now rewrite !map_length. }
  destruct (map_combine _ _ kvs' ts Hlts) as (HL1 & HL2).
  set (L' := combine kvs' ts) in *.
  assert (Hkeys : forall kv, In kv kvs' -> val_eqb (fst kv) (fst kv) = true).
  { intros kv Hkv. assert (Hin : In (fst kv) (map fst LK)) by (rewrite HLK1; now apply in_map).
    apply in_map_iff in Hin. destruct Hin as (kk & Hk1 & Hk2).
    rewrite Forall_forall in HLKF. destruct (HLKF _ Hk2) as (fpk & Hdkk & _). rewrite <- Hk1.
    eapply flat_key; eauto. }
  assert (HsF : Forall (fun vt => size (snd vt) < B) LV).
  { apply in_fps_sum. rewrite HLV2. cbn in Hsz. lia. }
  assert (HF' : Forall (fun r => In (fst r) kvs /\ val_eqb (fst (fst r)) (fst (fst r)) = true /\ size (snd r) < B /\
            exists fp, den decls h2 e (snd (fst r)) (snd r) fp /\ ~ In m fp) L').
  { assert (HLVe : map (fun r => (snd (fst r), snd r)) L' = LV).
    { assert (Hq : forall (l1 : list (val * val)) (l2 : list tree) (l3 : list (val * tree)), map fst l3 = map snd l1 -> map snd l3 = l2 ->
                map (fun r => (snd (fst r), snd r)) (combine l1 l2) = l3).
      { induction l1 as [|x l1 IHl]; intros l2 [|[y z] l3] Q1 Q2; try discriminate Q1; cbn in *; [easy|].
        subst l2. injection Q1 as -> Q1. cbn. f_equal. now apply IHl. }
      apply Hq; easy. }
    apply Forall_forall. intros r Hr.
    assert (Hr1 : In (fst r) kvs') by (rewrite <- HL1; now apply in_map).
    assert (Hr2 : In (snd (fst r), snd r) LV) by (rewrite <- HLVe; now apply (in_map (fun r => (snd (fst r), snd r)))).
    rewrite Forall_forall in HLVF, HsF.
    split; [eapply Permutation_in; [symmetry; exact Hperm|easy]|].
    split; [now apply Hkeys|]. split; [now apply (HsF _ Hr2)|].
    destruct (HLVF _ Hr2) as (fpr & Hdr & Hir). exists fpr. split; [easy|].
    intros X1. apply Hmf. now apply Hir. }
  assert (Hpo : Permutation (ord kvs) (map fst L')).
  { rewrite HL1. eapply Permutation_trans; [apply (pr_ord _ _ _ _ _ P)|easy]. }
  apply Permutation_map_inv in Hpo. destruct Hpo as (L & HL & HpL).
  assert (HkL : Permutation (map fst kvs) (map (fun r => fst (fst r)) L)).
  { rewrite <- (map_map fst fst), <- HL. apply Permutation_map. symmetry. apply (pr_ord _ _ _ _ _ P). }
  destruct (map_loop E a b m0 m kt e mb kvs Hstep L h2 []) as (h3 & R & Hx & U3 & HR & HRF).
  - easy.
  - easy.
  - cbn [map app]. eapply Permutation_NoDup; eauto.
  - intros [X1|[X1|[X1|[]]]]; unfold m in *; lia.
  - rewrite Forall_forall in HF' |- *. intros r Hr. apply HF'. eapply Permutation_in; [symmetry; exact HpL|easy].
  - rewrite x_cons, x_formap, (tl_in _ _ _ _ _ _ C), (va_in _ _ _ _ _ _ C), Ha2, (ctx_ti _ _ _ _ _ _ C), HT, H02, HL, Hx.
    cbn [keep]. exists h3. split; [easy|].
    set (gp := fun r : val * val * tree => (fst (fst r), snd r)) in *.
    assert (HpR : Permutation (map gp L') (map gp R)) by (rewrite HR; now apply Permutation_map).
    apply Permutation_map_inv in HpR. destruct HpR as (R' & HR' & HpR).
    assert (HK : map fst (map fst R') = map fst kvs').
    { rewrite <- HL1, !map_map. change (map (fun x => fst (gp x)) R' = map (fun x => fst (gp x)) L').
      rewrite <- !(map_map gp fst). now rewrite HR'. }
    assert (HTs : map snd R' = ts).
    { rewrite <- HL2. change (map (fun x => snd (gp x)) R' = map (fun x => snd (gp x)) L').
      rewrite <- !(map_map gp snd). now rewrite HR'. }
    assert (Hln : List.length (map fst R') = List.length kvs').
    { rewrite <- (map_length fst (map fst R')), HK. apply map_length. }
    cbn [app] in U3. assert (Hr3 := upd_read _ _ _ _ U3). unfold hread in Hr3. cbn [fst snd] in Hr3.
    destruct (nth_error h3 m) as [vm|] eqn:Hvm; [|discriminate Hr3]. injection Hr3 as ->.
    destruct (each_dens decls h3 e (fun l => List.length h2 <= l) (map (fun r => (snd (fst r), snd r)) R'))
      as (fpR & HdR & HfR).
    { rewrite Forall_forall in HRF |- *. intros vt Hvt. apply in_map_iff in Hvt. destruct Hvt as (r & <- & Hr).
      cbn [fst snd]. apply HRF. eapply Permutation_in; [symmetry; exact HpR|easy]. }
    rewrite !map_map, map_length in HdR. cbn [fst snd] in HdR.
    exists (VMapRef m), (m :: fpR). split; [|split].
    + eapply upd_upd_new; [exact U| |exact U3]. cbn. easy.
    + rewrite <- HK. eapply (den_map decls h3 T kt e m (map fst R) (map fst R') kts ts fpR).
      * easy.
      * easy.
      * rewrite (map_map fst fst). rewrite <- (map_map gp fst), HR. unfold gp. rewrite map_map.
        cbn [fst]. eapply Permutation_NoDup; eauto.
      * now apply Permutation_map.
      * rewrite Hln, HK. eapply dens_upd; eauto.
      * rewrite <- HTs, map_map, map_length. exact HdR.
    + constructor; [easy|]. eapply Forall_impl; [|exact HfR]. cbn. lia.
Qed.

End Blocks.

End Calls.
End Proofs.
