(** * Proofs on import paths and aggregated errors. *)

From Coq Require Import List String Ascii Bool Arith Lia.
From Verif Require Import GoLib GoLibFacts ErrorsModel ErrorsSpec.
Import ListNotations.
Open Scope string_scope.
Open Scope list_scope.

(** ** Paths *)
Lemma contains_iff s sub : str_contains s sub = true <-> exists a b, s = (a ++ sub ++ b)%string.
Proof.
  induction s as [|c s IH]; cbn [str_contains].
  - rewrite orb_false_r, has_prefix_spec. split.
    + intros (t & ->). exists "", t. reflexivity.
    + intros (a & b & E). destruct a; [|discriminate]. exists b. exact E.
  - rewrite orb_true_iff, has_prefix_spec, IH. split.
    + intros [(t & E)|(a & b & E)]; [exists "", t; exact E|exists (String c a), b; simpl; congruence].
    + intros (a & b & E). destruct a as [|d a]; [left; exists b; exact E|right; exists a, b; simpl in E; congruence].
Qed.
Lemma split_last sep fuel : sep <> "" -> forall acc s, String.length s < fuel ->
  (str_contains s sep = false /\ last (split_fuel fuel sep acc s) "" = (acc ++ s)%string) \/
  (exists q r, s = (q ++ sep ++ r)%string /\ str_contains r sep = false /\ last (split_fuel fuel sep acc s) "" = r).
Proof.
  intros Hs. induction fuel as [|fuel IH]; intros acc s Hf; [lia|]. cbn [split_fuel]. destruct s as [|a s].
  - left. split; [destruct sep; [congruence|reflexivity]|]. simpl. rewrite str_app_nil_r. reflexivity.
  - destruct (has_prefix sep (String a s)) eqn:P.
    + right. apply has_prefix_spec in P as (t & E). rewrite E, str_drop_app.
      assert (Hl : String.length t < fuel).
      { apply (f_equal String.length) in E. rewrite str_length_app in E. simpl in E, Hf. destruct sep; [congruence|]. simpl in E. lia. }
      assert (Hn : forall x l, last (x :: split_fuel fuel sep "" l) "" = last (split_fuel fuel sep "" l) "").
      { intros x l. destruct fuel; [lia|]. cbn [split_fuel]. destruct l; [reflexivity|]. destruct (has_prefix sep (String a0 l)); [reflexivity|].
        assert (H : forall fuel acc l, split_fuel fuel sep acc l <> []) by (intros f; induction f as [|f IHf]; intros ac [|b m]; cbn [split_fuel]; try discriminate; destruct (has_prefix sep (String b m)); [discriminate|apply IHf]).
        specialize (H fuel ("" ++ String a0 "")%string l). destruct (split_fuel fuel sep ("" ++ String a0 "") l); [congruence|reflexivity]. }
      rewrite Hn. destruct (IH "" t Hl) as [(H1 & H2)|(q & r & H1 & H2 & H3)].
      * exists "", t. rewrite H2. auto.
      * exists (sep ++ q)%string, r. split; [rewrite H1, str_app_assoc; reflexivity|auto].
    + assert (Hl : String.length s < fuel) by (simpl in Hf; lia). destruct (IH (acc ++ String a "")%string s Hl) as [(H1 & H2)|(q & r & H1 & H2 & H3)].
      * left. cbn [str_contains]. rewrite P, H1. split; [reflexivity|]. rewrite H2, str_app_assoc. reflexivity.
      * right. exists (String a q), r. split; [rewrite H1; reflexivity|auto].
Qed.

Lemma nvp_cases s : (str_contains s "/vendor/" = false /\ non_vendor_path s = s) \/
  (exists q, s = (q ++ "/vendor/" ++ non_vendor_path s)%string /\ str_contains (non_vendor_path s) "/vendor/" = false).
Proof.
  unfold non_vendor_path, split_str. destruct (split_last "/vendor/" (S (String.length s)) ltac:(discriminate) "" s ltac:(lia)) as [(H1 & H2)|(q & r & H1 & H2 & H3)].
  - left. split; assumption.
  - right. rewrite H3. exists q. auto.
Qed.
Lemma nvp_clean s : str_contains (non_vendor_path s) "/vendor/" = false.
Proof. destruct (nvp_cases s) as [(H1 & H2)|(q & _ & H)]; [rewrite H2; exact H1|exact H]. Qed.
Lemma nvp_id s : str_contains s "/vendor/" = false -> non_vendor_path s = s.
Proof.
  intros H. destruct (nvp_cases s) as [(_ & H2)|(q & E & _)]; [exact H2|]. assert (str_contains s "/vendor/" = true) by (apply contains_iff; eauto). congruence.
Qed.

Lemma app_split (a b c d : string) : (a ++ b)%string = (c ++ d)%string -> (exists t, c = (a ++ t)%string /\ b = (t ++ d)%string) \/ (exists t, a = (c ++ t)%string /\ d = (t ++ b)%string).
Proof.
  revert c. induction a as [|x a IH]; intros c E; simpl in E; [left; exists c; auto|]. destruct c as [|y c]; simpl in E.
  - right. exists (String x a). auto.
  - injection E as -> E. destruct (IH c E) as [(t & -> & ->)|(t & -> & ->)]; [left|right]; exists t; auto.
Qed.
Lemma nvp_last s p r : has_prefix "vendor/" (non_vendor_path s) = false -> s = (p ++ "/vendor/" ++ r)%string -> exists t, r = (t ++ non_vendor_path s)%string.
Proof.
  intros Hp E. destruct (nvp_cases s) as [(H1 & _)|(q & E2 & Hc)].
  - assert (str_contains s "/vendor/" = true) by (apply contains_iff; eauto). congruence.
  - set (res := non_vendor_path s) in *. rewrite E in E2 at 1. apply app_split in E2 as [(t & -> & E2)|(t & -> & E2)].
    + rewrite <- str_app_assoc in E2. apply app_split in E2 as [(u & _ & ->)|(u & E2 & E3)]; [exists u; reflexivity|].
      apply (f_equal String.length) in E2. rewrite !str_length_app in E2. simpl in E2. destruct u; [|simpl in E2; lia]. exists "". symmetry. exact E3.
    + destruct t as [|c1 t]; [simpl in E2; injection E2 as E2; exists ""; symmetry; exact E2|]. exfalso.
      destruct t as [|c2 t]; [simpl in E2; discriminate|]. destruct t as [|c3 t]; [simpl in E2; discriminate|]. destruct t as [|c4 t]; [simpl in E2; discriminate|].
      destruct t as [|c5 t]; [simpl in E2; discriminate|]. destruct t as [|c6 t]; [simpl in E2; discriminate|]. destruct t as [|c7 t]; [simpl in E2; discriminate|].
      destruct t as [|c8 t].
      * simpl in E2. injection E2 as _ _ _ _ _ _ _ E2. rewrite E2 in Hp. simpl in Hp. discriminate.
      * simpl in E2. injection E2 as _ _ _ _ _ _ _ _ E2. assert (str_contains res "/vendor/" = true); [|congruence]. apply contains_iff. exists t, r. exact E2.
Qed.

(** ** Errors *)
Fixpoint err_ind' (P : err -> Prop) (h1 : forall m, P (EPlain m)) (h2 : forall p m, P (EPath p m)) (h3 : forall l, P (EScan l)) (h4 : forall p m, P (EType p m))
  (h5 : forall l, (forall x, In x l -> P x) -> P (EList l)) (h6 : forall p e, P e -> P (EPos p e)) (h7 : forall p e, P e -> P (EWrap p e))
  (h8 : forall l, (forall x, In x l -> P x) -> P (EJoin l)) (e : err) {struct e} : P e.
Proof.
  assert (L : forall l : list err, (forall x, In x l -> P x) \/ True) by auto. clear L.
  destruct e as [m|p m|l|p m|l|p e|p e|l]; [apply h1|apply h2|apply h3|apply h4| | | |].
  - apply h5. induction l as [|y l IH]; intros x [].
    + subst x. apply (err_ind' P h1 h2 h3 h4 h5 h6 h7 h8 y).
    + apply IH. assumption.
  - apply h6. apply (err_ind' P h1 h2 h3 h4 h5 h6 h7 h8 e).
  - apply h7. apply (err_ind' P h1 h2 h3 h4 h5 h6 h7 h8 e).
  - apply h8. induction l as [|y l IH]; intros x [].
    + subst x. apply (err_ind' P h1 h2 h3 h4 h5 h6 h7 h8 y).
    + apply IH. assumption.
Defined.

Fixpoint first_list (l : list err) : option (list err) := match l with [] => None | x :: l' => match as_list x with Some r => Some r | None => first_list l' end end.
Lemma as_list_join l : as_list (EJoin l) = first_list l.
Proof. reflexivity. Qed.

Lemma as_list_spec e : match as_list e with Some l => sees e l | None => sees_none e end.
Proof.
  induction e as [m|p m|l|p m|l IH|p e IH|p e IH|l IH] using err_ind'; try (simpl; constructor).
  - simpl. destruct (as_list e); constructor; exact IH.
  - rewrite as_list_join.
    assert (G : match first_list l with Some r => exists l1 e l2, l = l1 ++ e :: l2 /\ (forall x, In x l1 -> sees_none x) /\ sees e r | None => forall x, In x l -> sees_none x end).
    { induction l as [|x l IHl]; simpl; [intros x []|]. pose proof (IH x (or_introl eq_refl)) as Hx. destruct (as_list x) as [r|].
      - exists [], x, l. split; [reflexivity|]. split; [intros y []|exact Hx].
      - assert (IHl' := IHl (fun y Hy => IH y (or_intror Hy))). destruct (first_list l) as [r|].
        + destruct IHl' as (l1 & e & l2 & -> & H1 & H2). exists (x :: l1), e, l2. split; [reflexivity|]. split; [intros y [<-|Hy]; auto|exact H2].
        + intros y [<-|Hy]; auto. }
    destruct (first_list l) as [r|]; [destruct G as (l1 & e & l2 & -> & H1 & H2); constructor; assumption|constructor; exact G].
Qed.

Lemma first_app l1 e l2 l : (forall x, In x l1 -> as_list x = None) -> as_list e = Some l -> first_list (l1 ++ e :: l2) = Some l.
Proof. intros H1 H2. induction l1 as [|x l1 IH]; simpl; [rewrite H2; reflexivity|]. rewrite (H1 x (or_introl eq_refl)). apply IH. intros y Hy. apply H1. right. exact Hy. Qed.
Lemma first_none l : (forall x, In x l -> as_list x = None) -> first_list l = None.
Proof. intros H. induction l as [|x l IH]; simpl; [reflexivity|]. rewrite (H x (or_introl eq_refl)). apply IH. intros y Hy. apply H. right. exact Hy. Qed.
Lemma sees_as_none e : sees_none e -> as_list e = None.
Proof.
  induction e as [m|p m|l|p m|l IH|p e IH|p e IH|l IH] using err_ind'; intros H; inversion H as [ | | | | |? ? H1|? H1]; subst; try reflexivity.
  - simpl. auto.
  - rewrite as_list_join. apply first_none. auto.
Qed.
Lemma sees_as e l : sees e l -> as_list e = Some l.
Proof.
  revert l. induction e as [m|p m|l0|p m|l0 IH|p e IH|p e IH|l0 IH] using err_ind'; intros l H; inversion H as [?|? ? ? H1|l1 e' l2 ? H1 H2]; subst; try reflexivity.
  - simpl. auto.
  - rewrite as_list_join. apply first_app; [intros x Hx; apply sees_as_none; auto|]. apply IH; [apply in_elt|exact H2].
Qed.

Lemma size_pos e : 1 <= err_size e.
Proof. destruct e; simpl; lia. Qed.
Lemma sum_in x l : In x l -> err_size x <= list_sum (map err_size l).
Proof. induction l as [|y l IH]; intros []; [subst; simpl; lia|simpl; specialize (IH H); lia]. Qed.
Lemma sees_size e l : sees e l -> S (list_sum (map err_size l)) <= err_size e.
Proof.
  revert l. induction e as [m|p m|l0|p m|l0 IH|p e IH|p e IH|l0 IH] using err_ind'; intros l H; inversion H as [?|? ? ? H1|l1 e' l2 ? H1 H2]; subst.
  - simpl. lia.
  - simpl. specialize (IH l H1). lia.
  - pose proof (IH e' (in_elt _ _ _) l H2) as G. pose proof (sum_in e' (l1 ++ e' :: l2) (in_elt _ _ _)). simpl. lia.
Qed.

Section Add.
  Variable path_text : string -> string -> string.
  Variable scan_text : list (string * string) -> string.
  Variable type_text : nat -> string -> string.
  Variable position : nat -> string.
  Variable id : string.
  Notation text := (text path_text scan_text type_text).
  Notation add_error := (add_error path_text scan_text type_text position id).

  Lemma add_leaves fuel : forall e pos ls, err_size e <= fuel -> leaves e ls ->
    add_error (err_from_node_fuel fuel e pos) = map (fun l => mkPErr (position pos) (text l) UnknownError) ls.
  Proof.
    induction fuel as [|fuel IH]; intros e pos ls Hf H; [pose proof (size_pos e); lia|]. inversion H as [? Hn|? l lss Hs Hl]; subst; cbn [err_from_node_fuel].
    - rewrite (sees_as_none e Hn). reflexivity.
    - rewrite (sees_as e l Hs). cbn [ErrorsModel.add_error].
      assert (Hz : forall x, In x l -> err_size x <= fuel) by (intros x Hx; pose proof (sees_size e l Hs); pose proof (sum_in x l Hx); lia).
      clear H Hs Hf. induction Hl as [|x ls l lss Hx Hl IHl]; [reflexivity|]. cbn [map flat_map List.concat]. rewrite map_app. f_equal.
      + apply IH; [apply Hz; left; reflexivity|exact Hx].
      + apply IHl. intros y Hy. apply Hz. right. exact Hy.
  Qed.
  Lemma efn_add e pos ls : leaves e ls -> add_error (err_from_node e pos) = map (fun l => mkPErr (position pos) (text l) UnknownError) ls.
  Proof. apply add_leaves. constructor. Qed.
  Lemma text_says e : says path_text scan_text type_text e (text e).
  Proof.
    induction e as [m|p m|l|p m|l IH|p e IH|p e IH|l IH] using err_ind'; simpl; constructor; auto; (induction l as [|x l IHl]; simpl; constructor; [apply IH; left; reflexivity|apply IHl; intros y Hy; apply IH; right; exact Hy]).
  Qed.
  Lemma efn_says e pos ls : leaves e ls -> exists ss, Forall2 (says path_text scan_text type_text) ls ss /\
    add_error (err_from_node e pos) = map (fun s => mkPErr (position pos) s UnknownError) ss.
  Proof.
    intros H. exists (map text ls). split; [clear H; induction ls; simpl; constructor; [apply text_says|assumption]|]. rewrite (efn_add e pos ls H), map_map. reflexivity.
  Qed.
  Lemma maybe_add l : match maybe_err_list l with Some e => l <> [] /\ add_error e = flat_map add_error l | None => l = [] end.
  Proof. destruct l; simpl; [reflexivity|]. split; [discriminate|reflexivity]. Qed.
End Add.

Lemma leaves_exists n : forall e, err_size e <= n -> exists ls, leaves e ls.
Proof.
  induction n as [|n IH]; intros e Hn; [pose proof (size_pos e); lia|]. pose proof (as_list_spec e) as H. destruct (as_list e) as [l|]; [|exists [e]; constructor; exact H].
  assert (G : exists lss, Forall2 leaves l lss).
  { pose proof (sees_size e l H) as Hs. clear H. assert (Hz : forall x, In x l -> err_size x <= n) by (intros x Hx; pose proof (sum_in x l Hx); lia). clear Hs Hn.
    induction l as [|x l IHl]; [exists []; constructor|]. destruct (IH x (Hz x (or_introl eq_refl))) as (a & Ha). destruct IHl as (b & Hb); [intros y Hy; apply Hz; right; exact Hy|].
    exists (a :: b). constructor; assumption. }
  destruct G as (lss & G). exists (List.concat lss). eapply leaves_many; eassumption.
Qed.
Lemma leaves_unique n : forall e, err_size e <= n -> forall a b, leaves e a -> leaves e b -> a = b.
Proof.
  induction n as [|n IH]; intros e Hn a b Ha Hb; [pose proof (size_pos e); lia|].
  inversion Ha as [? Na|? l la Sa La]; inversion Hb as [? Nb|? l' lb Sb Lb]; subst; [reflexivity| | |].
  - apply sees_as_none in Na. apply sees_as in Sb. congruence.
  - apply sees_as_none in Nb. apply sees_as in Sa. congruence.
  - assert (l' = l) by (apply sees_as in Sa, Sb; congruence). subst l'. f_equal.
    assert (Hz : forall x, In x l -> err_size x <= n) by (intros x Hx; pose proof (sees_size e l Sa); pose proof (sum_in x l Hx); lia). clear Ha Hb Sa Sb Hn.
    revert lb Lb. induction La as [|x y l la Hx La IHl]; intros lb Lb; inversion Lb as [|? y' ? lb' Hy Lb']; subst; [reflexivity|]. f_equal.
    + apply (IH x); auto. apply Hz. left. reflexivity.
    + apply IHl; [|exact Lb']. intros z Hz'. apply Hz. right. exact Hz'.
Qed.
