From Coq Require Import List String Ascii Bool.
From Verif Require Import GoLib GoLibFacts RefModel.
Import ListNotations.
Open Scope string_scope.

Definition tilde : ascii := "~"%char.

Lemma replace2_notilde b by_ s : has_char tilde s = false -> replace2 "~" b by_ s = s.
Proof.
  induction s as [|x s IH]; intros H; [reflexivity|]. cbn [has_char] in H. apply orb_false_iff in H. destruct H as [Hx Hs].
  cbn [replace2]. destruct s as [|y s]; [reflexivity|]. unfold tilde in Hx. rewrite Hx. cbn [andb]. rewrite IH by exact Hs. reflexivity.
Qed.

Lemma replace2_cons_nt b by_ x s : Ascii.eqb x tilde = false -> replace2 "~" b by_ (String x s) = String x (replace2 "~" b by_ s).
Proof. intros H. unfold tilde in H. cbn [replace2]. rewrite H. cbn [andb]. destruct s; reflexivity. Qed.

Lemma decode_pkg p t : has_char tilde p = false -> has_char tilde t = false ->
  replace2 "~" "1" "/" (replace_char "/" "~1" p ++ "~0" ++ t) = (p ++ "~0" ++ t)%string.
Proof.
  intros Hp Ht. induction p as [|x p IH].
  - cbn [replace_char append]. change ("~0" ++ t)%string with (String "~" (String "0" t)).
    transitivity (String "~" (replace2 "~" "1" "/" (String "0" t))); [reflexivity|].
    rewrite replace2_cons_nt by reflexivity. rewrite replace2_notilde by exact Ht. reflexivity.
  - cbn [has_char] in Hp. apply orb_false_iff in Hp. destruct Hp as [Hx Hp]. specialize (IH Hp).
    cbn [replace_char]. destruct (Ascii.eqb x "/") eqn:E.
    + apply Ascii.eqb_eq in E. subst x.
      change (("~1" ++ replace_char "/" "~1" p) ++ "~0" ++ t)%string with (String "~" (String "1" (replace_char "/" "~1" p ++ "~0" ++ t))).
      cbn [replace2]. rewrite !Ascii.eqb_refl. cbn [andb]. rewrite IH. reflexivity.
    + change ((String x (replace_char "/" "~1" p)) ++ "~0" ++ t)%string with (String x (replace_char "/" "~1" p ++ "~0" ++ t)).
      rewrite replace2_cons_nt by exact Hx. rewrite IH. reflexivity.
Qed.

Lemma decode_tilde p t : has_char tilde p = false -> has_char tilde t = false ->
  replace2 "~" "0" "~" (p ++ "~0" ++ t) = (p ++ "~" ++ t)%string.
Proof.
  intros Hp Ht. induction p as [|x p IH].
  - change ("" ++ "~0" ++ t)%string with (String "~" (String "0" t)). cbn [replace2]. rewrite !Ascii.eqb_refl. cbn [andb].
    rewrite replace2_notilde by exact Ht. reflexivity.
  - cbn [has_char] in Hp. apply orb_false_iff in Hp. destruct Hp as [Hx Hp].
    change (String x p ++ "~0" ++ t)%string with (String x (p ++ "~0" ++ t)). rewrite replace2_cons_nt by exact Hx.
    rewrite IH by exact Hp. reflexivity.
Qed.

Lemma cut_app p t : has_char tilde p = false -> cut "~" (p ++ "~" ++ t) = (p, Some t).
Proof.
  induction p as [|x p IH]; intros H; [reflexivity|]. cbn [has_char] in H. apply orb_false_iff in H. destruct H as [Hx H].
  change (String x p ++ "~" ++ t)%string with (String x (p ++ "~" ++ t)). cbn [cut]. unfold tilde in Hx. rewrite Hx, IH by exact H. reflexivity.
Qed.

Lemma cut_none t : has_char tilde t = false -> cut "~" t = (t, None).
Proof.
  induction t as [|x t IH]; intros H; [reflexivity|]. cbn [has_char] in H. apply orb_false_iff in H. destruct H as [Hx H].
  cbn [cut]. unfold tilde in Hx. rewrite Hx, IH by exact H. reflexivity.
Qed.

Lemma ref_round_trip_proof p t : has_char tilde p = false -> has_char tilde t = false ->
  ref_parts (type_ref_link p t) = Some (t, p).
Proof.
  intros Hp Ht. unfold ref_parts, type_ref_link.
  rewrite has_prefix_app, str_drop_app. unfold qualified_name.
  destruct (String.eqb p "") eqn:E.
  - apply String.eqb_eq in E. subst p. rewrite !replace2_notilde by (rewrite ?replace2_notilde; exact Ht). rewrite cut_none by exact Ht. reflexivity.
  - rewrite decode_pkg, decode_tilde, cut_app by assumption. reflexivity.
Qed.

Lemma ref_link_inj_proof p t p' t' :
  has_char tilde p = false -> has_char tilde t = false -> has_char tilde p' = false -> has_char tilde t' = false ->
  type_ref_link p t = type_ref_link p' t' -> p = p' /\ t = t'.
Proof.
  intros H1 H2 H3 H4 E. apply (f_equal ref_parts) in E. rewrite !ref_round_trip_proof in E by assumption.
  injection E as -> ->. auto.
Qed.

Lemma ident_round_trip_proof pkg (imports : list (string * pkg)) ctx p t :
  has_char tilde p = false -> has_char tilde t = false ->
  ident_from_ref pkg imports ctx (type_ref_link p t) =
    Some (match p with "" => Some ctx | _ => mget String.eqb imports p end, t).
Proof.
  intros Hp Ht. unfold ident_from_ref. rewrite ref_round_trip_proof by assumption. destruct p; reflexivity.
Qed.
