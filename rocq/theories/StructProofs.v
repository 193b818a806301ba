(** * Proofs about the fields of structs. *)
From Coq Require Import List String Ascii Bool Permutation.
From Verif Require Import GoLib GoLibFacts MapFacts SchemaModel RefModel MarkModel MarkSpec MarkProofs MarkOrder StructModel FlattenModel NeedModel StructSpec.
From Verif Require MarkProps.
Import ListNotations.
Open Scope string_scope.
Open Scope list_scope.

Lemma marked_iff set n : has_marker set n = true <-> marked set n.
Proof.
  unfold has_marker, marked. destruct (mget String.eqb set n) as [[|v vs]|]; split; try discriminate; try (intros (v' & vs' & [=])); try reflexivity.
  intros _. exists v, vs. reflexivity.
Qed.
Lemma marked_false set n : has_marker set n = false <-> ~ marked set n.
Proof. rewrite <- marked_iff. destruct (has_marker set n); split; congruence. Qed.

(** Tags *)
Lemma split_parts tag : tag_parts tag (hd "" (split_char "," tag)) (tl (split_char "," tag)).
Proof.
  assert (K : forall s, exists x l, split_char "," s = x :: l /\ s = join "," (x :: l) /\ Forall (fun x => has_char ","%char x = false) (x :: l)).
  { clear. induction s as [|c s IH]; cbn [split_char].
    - exists "", []. repeat split. constructor; [reflexivity|constructor].
    - destruct IH as (x & l & E & J & F). rewrite E. destruct (Ascii.eqb c ",") eqn:Ec.
      + apply Ascii.eqb_eq in Ec as ->. exists "", (x :: l). split; [reflexivity|]. split; [rewrite J; reflexivity|]. constructor; [reflexivity|exact F].
      + exists (String c x), l. split; [reflexivity|]. inversion F; subst. split.
        * destruct l; reflexivity.
        * constructor; [|assumption]. cbn [has_char]. rewrite H1. rewrite orb_false_r. exact Ec. }
  destruct (K tag) as (x & l & E & J & F). rewrite E. split; [exact J|exact F].
Qed.
Lemma parts_split tag n opts : tag_parts tag n opts -> split_char "," tag = n :: opts.
Proof. intros [-> F]. apply (split_join_char ","%char (n :: opts)); [discriminate|exact F]. Qed.

(** Roles *)
Definition is_hidden ig (f : finfo) : bool := negb (String.eqb (fi_name f) "") && ig && negb (fi_exported f).
Lemma hidden_iff ig f : is_hidden ig f = true <-> hidden ig f.
Proof.
  unfold is_hidden, hidden. rewrite !andb_true_iff, !negb_true_iff. rewrite String.eqb_neq. tauto.
Qed.
Lemma hidden_false ig f : is_hidden ig f = false <-> ~ hidden ig f.
Proof. rewrite <- hidden_iff. destruct (is_hidden ig f); split; congruence. Qed.

Definition need_of (pm : marker_values) (f : finfo) (inline omit : bool) : bool :=
  if has_marker (fi_markers f) "kubebuilder:validation:Optional" then false
  else if has_marker (fi_markers f) "kubebuilder:validation:Required" then true
  else if has_marker (fi_markers f) "optional" then false
  else if has_marker (fi_markers f) "required" then true
  else if negb (has_marker pm "kubebuilder:validation:Optional") then negb inline && negb omit else false.
Ltac mk := repeat match goal with
  | H : has_marker _ _ = true |- _ => apply marked_iff in H
  | H : has_marker _ _ = false |- _ => apply marked_false in H end.
Lemma need_requirement pm f i o r : requirement pm f i o r <-> r = need_of pm f i o.
Proof.
  unfold need_of. split.
  - intros H. destruct (has_marker (fi_markers f) "kubebuilder:validation:Optional") eqn:E1, (has_marker (fi_markers f) "kubebuilder:validation:Required") eqn:E2,
      (has_marker (fi_markers f) "optional") eqn:E3, (has_marker (fi_markers f) "required") eqn:E4, (has_marker pm "kubebuilder:validation:Optional") eqn:E5; mk;
    inversion H as [?|? ?|? ? ?|? ? ? ?|K ?|K ?]; subst; cbn [negb]; try reflexivity; try contradiction;
    try (exfalso; eapply K; [|eassumption]; cbn [In]; tauto).
  - intros ->. destruct (has_marker (fi_markers f) "kubebuilder:validation:Optional") eqn:E1; [mk; constructor 1; assumption|].
    destruct (has_marker (fi_markers f) "kubebuilder:validation:Required") eqn:E2; [mk; constructor 2; assumption|].
    destruct (has_marker (fi_markers f) "optional") eqn:E3; [mk; constructor 3; assumption|].
    destruct (has_marker (fi_markers f) "required") eqn:E4; [mk; constructor 4; assumption|].
    destruct (has_marker pm "kubebuilder:validation:Optional") eqn:E5; mk; cbn [negb]; [constructor 5|constructor 6]; try assumption;
    intros m [<-|[<-|[<-|[<-|[]]]]]; assumption.
Qed.

Definition role_of ig pm (f : finfo) : role :=
  if is_hidden ig f then Skipped
  else match fi_json f with
  | None => Untagged
  | Some tag =>
      if Nat.eqb (List.length (split_char "," tag)) 1 && String.eqb (hd "" (split_char "," tag)) "-" then Skipped
      else let n := hd "" (split_char "," tag) in let opts := tl (split_char "," tag) in
           let inline := mem_str "inline" opts || String.eqb n "" in
           Member n inline (need_of pm f inline (mem_str "omitempty" opts))
  end.
Lemma dash_iff tag : Nat.eqb (List.length (split_char "," tag)) 1 && String.eqb (hd "" (split_char "," tag)) "-" = true <-> tag = "-".
Proof.
  rewrite andb_true_iff, PeanoNat.Nat.eqb_eq, String.eqb_eq. split.
  - intros [L H]. destruct (split_parts tag) as [J _]. destruct (split_char "," tag) as [|x [|y l]]; try discriminate. cbn in *. congruence.
  - intros ->. split; reflexivity.
Qed.
Lemma plays_role ig pm f r : plays ig pm f r <-> r = role_of ig pm f.
Proof.
  unfold role_of. split.
  - intros H. destruct (is_hidden ig f) eqn:Eh; [apply hidden_iff in Eh; inversion H; subst; reflexivity || contradiction|]. apply hidden_false in Eh.
    inversion H as [K|K J|K J|tag n opts i o q K J ND P I O Q]; subst; try contradiction; rewrite J; try reflexivity.
    destruct (_ && _) eqn:Ed; [apply dash_iff in Ed; contradiction|]. rewrite (parts_split _ _ _ P). cbn [hd tl].
    assert (Ei : i = mem_str "inline" opts || String.eqb n "").
    { apply eq_true_iff_eq. rewrite I, orb_true_iff, mem_str_spec, String.eqb_eq. tauto. }
    assert (Eo : o = mem_str "omitempty" opts) by (apply eq_true_iff_eq; rewrite O, mem_str_spec; tauto).
    subst i o. apply need_requirement in Q. subst q. reflexivity.
  - intros ->. destruct (is_hidden ig f) eqn:Eh; [apply hidden_iff in Eh; constructor 1; assumption|]. apply hidden_false in Eh.
    destruct (fi_json f) as [tag|] eqn:Ej; [|constructor 2; assumption].
    destruct (_ && _) eqn:Ed; [apply dash_iff in Ed; subst; constructor 3; assumption|].
    eapply plays_member with (tag := tag) (opts := tl (split_char "," tag)) (omit := mem_str "omitempty" (tl (split_char "," tag))); try eassumption.
    + intros E. apply dash_iff in E. congruence.
    + apply split_parts.
    + rewrite orb_true_iff, mem_str_spec, String.eqb_eq. tauto.
    + apply mem_str_spec.
    + apply need_requirement. reflexivity.
Qed.
Lemma role_exists ig pm f : exists r, plays ig pm f r.
Proof. eexists. apply plays_role. reflexivity. Qed.
Lemma role_unique ig pm f r r' : plays ig pm f r -> plays ig pm f r' -> r = r'.
Proof. rewrite !plays_role. congruence. Qed.

Lemma bind_done {A B} (x : res A) (f : A -> res B) b r e : bind x f = Done b r e ->
  exists a r1 e1 r2 e2, x = Done a r1 e1 /\ f a = Done b r2 e2 /\ r = r1 ++ r2 /\ e = e1 ++ e2.
Proof. destruct x as [a r1 e1|]; [|discriminate]. cbn. destruct (f a) as [b' r2 e2|] eqn:E; [|discriminate]. intros [= -> <- <-]. exists a, r1, e1, r2, e2. auto. Qed.

Section Fields.
  Variable order : marker_values -> marker_values.
  Variable sorted : list (string * smarker) -> list (string * smarker).
  Variable imports : string -> bool.
  Variable allow_dangerous ig : bool.
  Variable pm : marker_values.
  Notation FS := (field_schema order sorted imports allow_dangerous).
  Notation CON := (contributes order sorted imports allow_dangerous ig pm).
  Notation TTS := (type_to_schema order sorted imports allow_dangerous).
  Notation STEP := (field_step order sorted imports allow_dangerous ig pm).
  Notation FIELDS := (fields_to_schema order sorted imports allow_dangerous ig pm).

  Definition add_part (s : schema) (x : part) : schema :=
    match x with
    | (Member n true q, Some p) => let s' := if q then set_required s (k_required (s_kw s) ++ [n]) else s in set_allOf s' (s_allOf s' ++ [p])
    | (Member n false q, Some p) => let s' := if q then set_required s (k_required (s_kw s) ++ [n]) else s in set_props s' (mset String.eqb (s_props s') n p)
    | _ => s
    end.
  Definition tag_err (f : finfo) (x : part) : list gerr := match fst x with Untagged => [GNoTag (fi_name f)] | _ => [] end.
  Definition no_tag (e : gerr) : Prop := exists n, e = GNoTag n.

  Lemma with_markers_done ms s s' r e : with_markers order sorted ms s = Done s' r e -> s' = fst (apply_markers order sorted ms s) /\ r = [] /\ forall x, In x e -> ~ no_tag x.
  Proof.
    unfold with_markers. destruct (apply_markers order sorted ms s) as [s1 e1]. intros [= <- <- <-]. repeat split. intros x Hx. apply in_map_iff in Hx as (n & <- & _). intros [? [=]].
  Qed.
  Definition clean {A} (r : res A) : Prop := match r with Done _ _ e => forall x, In x e -> ~ no_tag x | Panic => True end.
  Lemma clean_bind {A B} (x : res A) (f : A -> res B) : (match x with Done a _ e => (forall y, In y e -> ~ no_tag y) /\ clean (f a) | Panic => True end) -> clean (bind x f).
  Proof. destruct x as [a r e|]; [|exact (fun _ => I)]. intros [H1 H2]. cbn. destruct (f a); [|exact I]. intros y [H|H]%in_app_or; auto. Qed.
  Lemma clean_markers ms s : clean (with_markers order sorted ms s).
  Proof. destruct (with_markers order sorted ms s) eqn:E; [|exact I]. apply with_markers_done in E. tauto. Qed.
  Lemma clean_ret {A} (s : A) : clean (ret s). Proof. intros x []. Qed.
  Lemma clean_fails {A} (s : A) e : ~ no_tag e -> clean (fails s e). Proof. intros H x [<-|[]]. exact H. Qed.
  Lemma clean_bind' {A B} (x : res A) (f : A -> res B) : clean x -> (forall s, clean (f s)) -> clean (bind x f).
  Proof. intros H1 H2. apply clean_bind. destruct x; [split; auto|exact I]. Qed.
  Lemma clean_request p n : clean (request imports p n).
  Proof. unfold request. destruct (_ || _); [intros x []|exact I]. Qed.
  Ltac nt := intros [? [=]].
  Lemma clean_local n t : clean (local_named imports allow_dangerous n t).
  Proof.
    assert (R : forall p m (g : unit -> schema), clean (bind (request imports p m) (fun u => ret (g u)))) by (intros; apply clean_bind'; [apply clean_request|intros; apply clean_ret]).
    assert (Bs : forall k b, clean (bind (match builtin_to_type allow_dangerous k with Some r => ret r | None => fails ("", "") GBuiltin end) (fun '(typ, fmt) =>
            if negb (String.eqb b n) then bind (request imports "" n) (fun _ => ret (set_ref (typed typ fmt) (Some (type_ref_link "" n)))) else ret (typed typ fmt)))).
    { intros k b. apply clean_bind'; [destruct (builtin_to_type _ _); [apply clean_ret|apply clean_fails; nt]|]. intros [ty fm]. destruct (negb _); [apply R|apply clean_ret]. }
    unfold local_named. destruct t as [|k b|o m u|o m u|]; try (apply clean_fails; nt); try exact I.
    - apply Bs.
    - cbn [obj_of]; destruct o; try exact I; apply R.
    - destruct u as [|k b|o' m' u'|o' m' u'|]; try exact I.
      + apply clean_bind'; [apply clean_fails; nt|]. intros [ty fm]. apply R.
      + apply Bs.
      + cbn [obj_of]. destruct o'; try exact I; apply R.
      + cbn [obj_of]. destruct o'; try exact I; apply R.
  Qed.
  Lemma clean_named t : clean (named imports t).
  Proof.
    assert (R : forall p m (g : unit -> schema), clean (bind (request imports p m) (fun u => ret (g u)))) by (intros; apply clean_bind'; [apply clean_request|intros; apply clean_ret]).
    unfold named. destruct t as [|k b|o m u|o m u|]; try (apply clean_fails; nt); try exact I; cbn [obj_of]; destruct o; try exact I; apply R.
  Qed.
  Lemma clean_type S1 S2 d ms e : clean S1 -> clean S2 -> clean (TTS S1 S2 d ms e).
  Proof.
    revert S1 S2 d ms. induction e as [n t|t|sz e IH|k v IH|e IH| |]; intros S1 S2 d ms H1 H2; cbn [type_to_schema];
      try (apply clean_fails; intros [? [=]]); (apply clean_bind'; [|intros; apply clean_markers]); auto using clean_local, clean_named.
    - destruct (_ && _); [apply clean_ret|]. apply clean_bind'; [apply IH; exact I|]. intros. apply clean_ret.
    - destruct (negb _); [apply clean_fails; intros [? [=]]|].
      destruct v as [n t|t|sz e|k' v'|e| |]; try (apply clean_fails; intros [? [=]]); (apply clean_bind'; [|intros; apply clean_ret]); auto using clean_local, clean_named.
      + destruct (_ && _) eqn:E; [apply clean_ret|]. specialize (IH Panic Panic "" [] I I). cbn [type_to_schema] in IH. rewrite E in IH.
        apply clean_bind'; [|intros; apply clean_ret]. 
        destruct (TTS Panic Panic "" [] e) as [s r er|]; [|exact I]. intros y Hy. cbn in IH. destruct (with_markers _ _ _ _) as [s1 r1 e1|] eqn:Ew in IH; [|discriminate Ew || (unfold with_markers in Ew; destruct (apply_markers _ _ _ _); discriminate)].
        apply (IH y). rewrite !in_app_iff. auto.
      + apply IH; exact I.
      + apply IH; exact I.
  Qed.

  Lemma step_part f s s' r e : STEP f s = Done s' r e ->
    exists x, CON f x /\ s' = add_part s x /\ (forall n, In (GNoTag n) e <-> In (GNoTag n) (tag_err f x)).
  Proof.
    unfold field_step. fold (is_hidden ig f). destruct (is_hidden ig f) eqn:Eh.
    { intros [= <- <- <-]. exists (Skipped, None). split; [split; [apply plays_role; unfold role_of; rewrite Eh; reflexivity|reflexivity]|]. split; [reflexivity|cbn; tauto]. }
    destruct (fi_json f) as [tag|] eqn:Ej.
    2: { intros [= <- <- <-]. exists (Untagged, None). split; [split; [apply plays_role; unfold role_of; rewrite Eh, Ej; reflexivity|reflexivity]|]. split; [reflexivity|cbn; tauto]. }
    destruct (_ && _) eqn:Ed.
    { intros [= <- <- <-]. exists (Skipped, None). split; [split; [apply plays_role; unfold role_of; rewrite Eh, Ej, Ed; reflexivity|reflexivity]|]. split; [reflexivity|cbn; tauto]. }
    cbn zeta. set (n := hd "" (split_char "," tag)). set (opts := tl (split_char "," tag)). set (inl := mem_str "inline" opts || String.eqb n ""). set (om := mem_str "omitempty" opts).
    intros H. apply bind_done in H as (base & r1 & e1 & r2 & e2 & Hb & H & -> & ->). apply bind_done in H as (p & r3 & e3 & r4 & e4 & Hm & H & -> & ->).
    injection H as <- <- <-. apply with_markers_done in Hm as (Hp & -> & He3).
    exists (Member n inl (need_of pm f inl om), Some p). split; [|split].
    - split.
      + cbn [fst]. apply plays_role. unfold role_of. rewrite Eh, Ej, Ed. reflexivity.
      + exists base. split; [|split; [|exact Hp]].
        * intros K. apply marked_iff in K. rewrite K in Hb. injection Hb. congruence.
        * intros K. apply marked_false in K. rewrite K in Hb. eauto.
    - unfold need_of, add_part. clear. destruct inl; destruct (has_marker (fi_markers f) "kubebuilder:validation:Optional"), (has_marker (fi_markers f) "kubebuilder:validation:Required"),
        (has_marker (fi_markers f) "optional"), (has_marker (fi_markers f) "required"), (has_marker pm "kubebuilder:validation:Optional"); try reflexivity; destruct om; reflexivity.
    - intros m. cbn. rewrite app_nil_r, in_app_iff. split; [|tauto]. intros [K|K].
      + destruct (has_marker (fi_markers f) "kubebuilder:validation:Schemaless"); [injection Hb as <- <- <-; destruct K|].
        pose proof (clean_type Panic Panic "" [] (fi_type f) I I) as C. rewrite Hb in C. apply (C _ K). exists m. reflexivity.
      + apply (He3 _ K). exists m. reflexivity.
  Qed.

  Lemma fields_parts fs : forall s s' r e, FIELDS fs s = Done s' r e ->
    exists xs, Forall2 CON fs xs /\ s' = fold_left add_part xs s /\ forall n, In (GNoTag n) e <-> exists f, In f fs /\ fi_name f = n /\ plays ig pm f Untagged.
  Proof.
    induction fs as [|f fs IH]; intros s s' r e H; cbn [fields_to_schema] in H.
    - injection H as <- <- <-. exists []. split; [constructor|]. split; [reflexivity|]. intros n. split; [intros []|intros (f & [] & _)].
    - apply bind_done in H as (s1 & r1 & e1 & r2 & e2 & H1 & H2 & -> & ->). apply step_part in H1 as (x & C & -> & T). apply IH in H2 as (xs & F & -> & T2).
      exists (x :: xs). split; [constructor; assumption|]. split; [reflexivity|]. intros n. rewrite in_app_iff, T, T2. split.
      + intros [K|(g & I & E & P)]; [|exists g; cbn; auto]. exists f. destruct C as [C _]. unfold tag_err in K. destruct (fst x); try contradiction. destruct K as [[= ->]|[]]. cbn. auto.
      + intros (g & [<-|I] & E & P); [left|right; exists g; auto]. destruct C as [C _]. rewrite (role_unique _ _ _ _ _ P C) in *. unfold tag_err. rewrite <- (role_unique _ _ _ _ _ P C). subst n. left. reflexivity.
  Qed.

  Lemma parts_required xs : forall s, k_required (s_kw (fold_left add_part xs s)) = k_required (s_kw s) ++ flat_map (fun x => match snd x with Some _ => required_by (fst x) | None => [] end) xs.
  Proof.
    induction xs as [|[r o] xs IH]; intros s; cbn [fold_left flat_map]; [rewrite app_nil_r; reflexivity|]. rewrite IH. rewrite app_assoc. f_equal.
    destruct r as [| |n [] []]; destruct o; cbn; rewrite ?app_nil_r; reflexivity.
  Qed.
  Lemma parts_allOf xs : forall s, s_allOf (fold_left add_part xs s) = s_allOf s ++ flat_map inlined xs.
  Proof.
    induction xs as [|[r o] xs IH]; intros s; cbn [fold_left flat_map]; [rewrite app_nil_r; reflexivity|]. rewrite IH. rewrite app_assoc. f_equal.
    destruct r as [| |n [] []]; destruct o; cbn; rewrite ?app_nil_r; reflexivity.
  Qed.
  Lemma parts_same xs : forall s, fold_left add_part xs s =
    set_props (set_allOf (set_required s (k_required (s_kw (fold_left add_part xs s)))) (s_allOf (fold_left add_part xs s))) (s_props (fold_left add_part xs s)).
  Proof.
    induction xs as [|[r o] xs IH]; intros s; cbn [fold_left].
    - destruct s as [k]. destruct k. reflexivity.
    - rewrite IH at 1. destruct r as [| |n [] []]; destruct o; reflexivity.
  Qed.
  Lemma parts_props_nodup xs : forall s, NoDup (map fst (s_props s)) -> NoDup (map fst (s_props (fold_left add_part xs s))).
  Proof.
    induction xs as [|[r o] xs IH]; intros s H; cbn [fold_left]; [exact H|]. apply IH. destruct r as [| |n [] []]; destruct o; cbn; auto; apply (mset_nodup _ _ _ String.eqb_eq); exact H.
  Qed.
  Definition part_ok (x : part) : Prop := match x with (Member _ _ _, None) => False | _ => True end.
  Lemma con_ok f x : CON f x -> part_ok x.
  Proof. intros [_ H]. destruct x as [[| |n i q] [p|]]; exact I || exact H. Qed.
  Lemma parts_props n xs : Forall part_ok xs -> forall s p, mget String.eqb (s_props (fold_left add_part xs s)) n = Some p <->
    last_named n xs p \/ ((forall req o, ~ In (Member n false req, o) xs) /\ mget String.eqb (s_props s) n = Some p).
  Proof.
    clear order sorted imports allow_dangerous ig pm.
    induction xs as [|x xs IH] using rev_ind; intros F s p.
    - cbn. split; [intros H; right; split; [tauto|exact H]|]. intros [(pre & q & post & E & _)|[_ H]]; [destruct pre; discriminate|exact H].
    - apply Forall_app in F as [F Fx]. specialize (IH F s). inversion Fx as [|? ? Ox _]; subst. rewrite fold_left_app. cbn [fold_left].
      assert (L : (exists q p', x = (Member n false q, Some p')) \/ ((forall q o, x <> (Member n false q, o)) /\ mget String.eqb (s_props (add_part (fold_left add_part xs s) x)) n = mget String.eqb (s_props (fold_left add_part xs s)) n)).
      { destruct x as [[| |m i q] [p'|]]; try contradiction; try (right; split; [discriminate|reflexivity]). destruct i.
        - right. split; [discriminate|]. destruct q; reflexivity.
        - destruct (string_dec m n) as [->|N]; [left; eauto|]. right. split; [congruence|]. destruct q; cbn; apply (mget_mset_ne _ _ _ String.eqb_eq); congruence. }
      destruct L as [(q & p' & ->)|[N ->]].
      + assert (G : mget String.eqb (s_props (add_part (fold_left add_part xs s) (Member n false q, Some p'))) n = Some p') by (destruct q; cbn; apply (mget_mset_eq _ _ _ String.eqb_eq)).
        rewrite G. split.
        * intros [= ->]. left. exists xs, q, []. split; [reflexivity|]. intros ? ? [].
        * intros [(pre & q' & post & E & H)|[H _]]; [|exfalso; apply (H q (Some p')); apply in_or_app; right; left; reflexivity].
          destruct post as [|y post] using rev_ind.
          -- apply app_inj_tail in E as [_ [= _ ->]]. reflexivity.
          -- exfalso. rewrite app_comm_cons, app_assoc in E. apply app_inj_tail in E as [_ <-]. apply (H q (Some p')). apply in_or_app; right; left; reflexivity.
      + rewrite IH. split.
        * intros [(pre & q & post & -> & H)|[H G]].
          -- left. exists pre, q, (post ++ [x]). split; [rewrite <- app_assoc; reflexivity|]. intros q' o K. apply in_app_or in K as [K|[K|[]]]; [exact (H _ _ K)|exact (N _ _ K)].
          -- right. split; [|exact G]. intros q o K. apply in_app_or in K as [K|[K|[]]]; [exact (H _ _ K)|exact (N _ _ K)].
        * intros [(pre & q & post & E & H)|[H G]].
          -- left. destruct post as [|y post _] using rev_ind.
             ++ apply app_inj_tail in E as [_ E]. exfalso. exact (N _ _ E).
             ++ rewrite app_comm_cons, app_assoc in E. apply app_inj_tail in E as [-> _]. exists pre, q, post. split; [reflexivity|]. intros q' o K. apply (H q' o). apply in_or_app. auto.
          -- right. split; [|exact G]. intros q o K. apply (H q o). apply in_or_app. auto.
  Qed.
End Fields.

(** ** Markers leave the parts alone *)
Section Frames.
  Variable order : marker_values -> marker_values.
  Variable sorted : list (string * smarker) -> list (string * smarker).
  Hypothesis Ho : is_order order.
  Hypothesis Hs : sorts sorted.
  Lemma marked_parts ms s : let s' := fst (apply_markers order sorted ms s) in
    k_ref (s_kw s') = k_ref (s_kw s) /\ k_required (s_kw s') = k_required (s_kw s) /\ k_desc (s_kw s') = k_desc (s_kw s) /\ s_props s' = s_props s /\ s_allOf s' = s_allOf s.
  Proof.
    cbv zeta. destruct (MarkProps.markers_only order sorted ms s Ho Hs) as [U _]. unfold unchanged_but in U. cbn in U. intuition congruence.
  Qed.
  Lemma unchanged_refs ks a b r : unchanged_but ks a b -> ref_in r b -> ref_in r a.
  Proof.
    intros U H. unfold unchanged_but in U.
    assert (R : k_ref (s_kw a) = k_ref (s_kw b)) by tauto.
    assert (C : children a = children b).
    { unfold children. destruct U as (_ & _ & _ & _ & _ & _ & _ & E1 & E2 & E3 & E4 & E5 & E6 & E7 & E8 & E9 & E10 & E11). rewrite E1, E2, E3, E4, E5, E6, E7, E8, E9, E10, E11. reflexivity. }
    inversion H; subst; [apply ref_here; congruence|]. eapply ref_below; [rewrite C; eassumption|assumption].
  Qed.
  Lemma marked_refs ms s r : ref_in r (fst (apply_markers order sorted ms s)) -> ref_in r s.
  Proof.
    destruct (MarkProps.markers_only order sorted ms s Ho Hs) as [U It]. cbv zeta in U, It. set (s' := fst (apply_markers order sorted ms s)) in *. clearbody s'.
    intros H. inversion H as [? R|? c C K]; subst.
    - apply ref_here. unfold unchanged_but in U. cbn in U. intuition congruence.
    - assert (D : In c (children (set_items s' (s_items s))) \/ exists a b l l', s_items s = Some (Some a, l) /\ s_items s' = Some (Some b, l') /\ c = b /\ unchanged_but (map keyword_of (markers_of ms true)) a b).
      { unfold children in *. cbn [s_items s_allOf s_oneOf s_anyOf s_not s_props s_addl s_patprops s_deps s_addl_items s_defs set_items].
        rewrite in_app_iff in C. rewrite in_app_iff. destruct C as [C|C]; [|tauto].
        destruct (s_items s) as [[[a|] l]|] eqn:Ea, (s_items s') as [[[b|] l']|] eqn:Eb; try (discriminate It); try (rewrite <- It in C; tauto); try (cbn in C; tauto).
        destruct It as [<- It]. cbn in C. destruct C as [<-|C]; [right; exists a, b, l, l; auto|]. left; left. right. exact C. }
      destruct D as [D|(a & b & l & l' & Ea & Eb & -> & Ub)].
      + eapply unchanged_refs; [exact U|]. eapply ref_below; [exact D|exact K].
      + apply ref_below with (c := a); [unfold children; rewrite Ea; left; reflexivity|]. exact (unchanged_refs _ _ _ _ Ub K).
  Qed.

  Variable imports : string -> bool.
  Variable allow_dangerous ig : bool.
  Variable pm : marker_values.
  Definition backed (reqs : list (string * string)) (s : schema) : Prop := forall r, ref_in r s -> exists p n, r = type_ref_link p n /\ In (p, n) reqs.
  Definition sound (x : res schema) : Prop := match x with Done s reqs _ => backed reqs s | Panic => True end.
  Lemma backed_app a b s : backed a s -> backed (a ++ b) s.
  Proof. intros H r K. destruct (H r K) as (p & n & E & I). exists p, n. rewrite in_app_iff. auto. Qed.
  Lemma backed_app_r a b s : backed b s -> backed (a ++ b) s.
  Proof. intros H r K. destruct (H r K) as (p & n & E & I). exists p, n. rewrite in_app_iff. auto. Qed.
  Lemma backed_plain s l : k_ref (s_kw s) = None -> (forall c, In c (children s) -> backed l c) -> backed l s.
  Proof. intros R C r H. inversion H as [? K|? c I K]; subst; [congruence|]. exact (C _ I _ K). Qed.
  Lemma backed_desc l s d : backed l s -> backed l (set_desc s d).
  Proof. intros H r K. apply H. inversion K; subst; [apply ref_here; assumption|eapply ref_below; eassumption]. Qed.
  Lemma backed_markers l ms s s' r e : with_markers order sorted ms s = Done s' r e -> backed l s -> backed l s'.
  Proof. intros H B. apply with_markers_done in H as (-> & _). intros x K. apply B. exact (marked_refs _ _ _ K). Qed.
  Lemma sound_bind x f : sound x -> (forall s l, backed l s -> match f s with Done s' r _ => backed (l ++ r) s' | Panic => True end) -> sound (bind x f).
  Proof. destruct x as [s r e|]; [|exact (fun _ _ => I)]. intros B H. specialize (H _ _ B). cbn. destruct (f s); exact H. Qed.
  Lemma sound_post x d ms : sound x -> sound (bind x (fun s => with_markers order sorted ms (set_desc s d))).
  Proof. intros H. apply sound_bind; [exact H|]. intros s l B. destruct (with_markers _ _ _ _) eqn:E; [|exact I]. apply backed_app. eapply backed_markers; [exact E|]. apply backed_desc, B. Qed.
  Lemma sound_ref p n t f : sound (bind (request imports p n) (fun _ => ret (set_ref (typed t f) (Some (type_ref_link p n))))).
  Proof.
    unfold request. destruct (_ || _); [|exact I]. intros r H. inversion H as [? K|? c C _]; subst; [|destruct C]. cbn in K. injection K as <-. exists p, n. split; [reflexivity|]. left. reflexivity.
  Qed.
  Lemma sound_ref' p n : sound (bind (request imports p n) (fun _ => ret (ref_to p n))).
  Proof.
    unfold request. destruct (_ || _); [|exact I]. intros r H. inversion H as [? K|? c C _]; subst; [|destruct C]. cbn in K. injection K as <-. exists p, n. split; [reflexivity|]. left. reflexivity.
  Qed.
  Lemma backed0 l : backed l schema0.
  Proof. intros r H. inversion H as [? K|? c C _]; subst; [discriminate|destruct C]. Qed.
  Lemma backed_typed l t f : backed l (typed t f).
  Proof. intros r H. inversion H as [? K|? c C _]; subst; [discriminate|destruct C]. Qed.
  Lemma sound_local n t : sound (local_named imports allow_dangerous n t).
  Proof.
    assert (Bs : forall k b, sound (bind (match builtin_to_type allow_dangerous k with Some r => ret r | None => fails ("", "") GBuiltin end) (fun '(typ, fmt) =>
            if negb (String.eqb b n) then bind (request imports "" n) (fun _ => ret (set_ref (typed typ fmt) (Some (type_ref_link "" n)))) else ret (typed typ fmt)))).
    { intros k b. destruct (match builtin_to_type allow_dangerous k with Some r => ret r | None => fails ("", "") GBuiltin end) as [[ty fm] r e|]; [|exact I]. cbn [bind].
      destruct (negb _); [|apply backed_typed]. pose proof (sound_ref "" n ty fm) as R. destruct (bind (request imports "" n) _); [|exact I]. cbn in *. apply backed_app_r, R. }
    unfold local_named. destruct t as [|k b|o m u|o m u|]; try exact I; try apply Bs; try apply backed0.
    - cbn [obj_of]; destruct o; try exact I; apply sound_ref'.
    - destruct u as [|k b|o' m' u'|o' m' u'|]; try exact I; try apply Bs.
      + pose proof (sound_ref "" n "" "") as R. cbn [bind fails]. destruct (bind (request imports "" n) _); exact R || exact I.
      + cbn [obj_of]; destruct o'; try exact I; apply sound_ref'.
      + cbn [obj_of]; destruct o'; try exact I; apply sound_ref'.
  Qed.
  Lemma sound_named t : sound (named imports t).
  Proof. unfold named. destruct t as [|k b|o m u|o m u|]; try exact I; try apply backed0; cbn [obj_of]; destruct o; try exact I; apply sound_ref'. Qed.
  Lemma sound_array x : sound x -> sound (bind x (fun items => ret (set_items (set_type schema0 "array") (Some (Some items, []))))).
  Proof. intros H. apply sound_bind; [exact H|]. intros s l B. cbn. rewrite app_nil_r. apply backed_plain; [reflexivity|]. intros c [<-|[]]. exact B. Qed.
  Lemma sound_map x : sound x -> sound (bind x (fun v => ret (set_addl (set_type schema0 "object") (Some (true, Some v))))).
  Proof. intros H. apply sound_bind; [exact H|]. intros s l B. cbn. rewrite app_nil_r. apply backed_plain; [reflexivity|]. intros c [<-|[]]. exact B. Qed.
  Notation TTS := (type_to_schema order sorted imports allow_dangerous).
  Lemma sound_type S1 S2 d ms e : sound S1 -> sound S2 -> sound (TTS S1 S2 d ms e).
  Proof.
    assert (G : forall e, (forall S1 S2 d ms, sound S1 -> sound S2 -> sound (TTS S1 S2 d ms e)) /\
       (forall sz, sound (if is_byte_type (type_of e) && negb sz then ret (typed "string" "byte")
                     else bind (TTS Panic Panic "" [] e) (fun items => ret (set_items (set_type schema0 "array") (Some (Some items, []))))))).
    { clear S1 S2 d ms e. fix IH 1. intros e.
      assert (A : forall S1 S2 d ms, sound S1 -> sound S2 -> sound (TTS S1 S2 d ms e)).
      { intros S1 S2 d ms H1 H2. destruct e as [n t|t|sz e|k v|e| |]; cbn [type_to_schema]; try (apply backed0); apply sound_post; auto using sound_local, sound_named.
        - destruct (IH e) as [_ B]. apply B.
        - destruct (negb _); [apply backed0|]. destruct (IH v) as [B _]. specialize (B Panic Panic "" [] I I).
          destruct v as [n t|t|sz e|k' v'|e| |]; try apply backed0; apply sound_map; auto using sound_local, sound_named.
          destruct (IH e) as [_ B']. apply B'.
        - destruct (IH e) as [B _]. apply B; assumption. }
      split; [exact A|]. intros sz. destruct (_ && _); [apply backed_typed|]. apply sound_array. apply A; exact I. }
    destruct (G e) as [A _]. apply A.
  Qed.
  Notation STEP := (field_step order sorted imports allow_dangerous ig pm).
  Notation FIELDS := (fields_to_schema order sorted imports allow_dangerous ig pm).
  Lemma backed_add l s q n : backed l s -> backed l (if q : bool then set_required s (k_required (s_kw s) ++ [n]) else s).
  Proof. destruct q; [|auto]. intros H r K. apply H. inversion K; subst; [apply ref_here; assumption|eapply ref_below; eassumption]. Qed.
  Lemma mset_in {V} (m : list (string * V)) k v x : In x (map snd (mset String.eqb m k v)) -> x = v \/ In x (map snd m).
  Proof. induction m as [|[k' v'] m IH]; cbn; [intuition congruence|]. destruct (String.eqb k k'); cbn; intuition congruence. Qed.
  Lemma step_sound f s l : backed l s -> match STEP f s with Done s' r _ => backed (l ++ r) s' | Panic => True end.
  Proof.
    intros B. unfold field_step. destruct (_ && _ && _); [cbn; rewrite app_nil_r; exact B|]. destruct (fi_json f) as [tag|]; [|cbn; rewrite app_nil_r; exact B].
    destruct (_ && _); [cbn; rewrite app_nil_r; exact B|]. cbn zeta.
    match goal with |- context[k_required (s_kw s) ++ [?n]] => set (nm := n) end.
    assert (S0 : sound (if has_marker (fi_markers f) "kubebuilder:validation:Schemaless" then ret schema0 else TTS Panic Panic "" [] (fi_type f))).
    { destruct (has_marker _ _); [apply backed0|]. apply sound_type; exact I. }
    destruct (if has_marker (fi_markers f) "kubebuilder:validation:Schemaless" then ret schema0 else TTS Panic Panic "" [] (fi_type f)) as [b r1 e1|]; [|exact I].
    cbn [bind]. destruct (with_markers order sorted (fi_markers f) (set_desc b (fi_doc f))) as [p r2 e2|] eqn:Ew; [|exact I]. cbn [bind ret].
    assert (Bp : backed r1 p) by (eapply backed_markers; [exact Ew|apply backed_desc, S0]).
    match goal with |- context[set_allOf ?x _] => set (q := x) end.
    assert (Bq : backed l q).
    { unfold q. repeat match goal with |- context[if ?x then _ else _] => destruct x end; try exact B; exact (backed_add l s true nm B). }
    clearbody q.
    intros r H. rewrite app_nil_r in *. destruct (_ || _) in H.
    - inversion H as [? K|? c C K]; subst.
      + destruct (Bq r) as (pp & n & E & I); [apply ref_here; exact K|]. exists pp, n. rewrite in_app_iff. auto.
      + unfold children in C. cbn [s_items s_allOf s_oneOf s_anyOf s_not s_props s_addl s_patprops s_deps s_addl_items s_defs set_allOf] in C.
        assert (D : c = p \/ In c (children q)). { unfold children. rewrite !in_app_iff in *. cbn [In] in C. intuition congruence. }
        destruct D as [->|D]; [destruct (Bp r K) as (pp & n & E & I)|destruct (Bq r) as (pp & n & E & I); [eapply ref_below; eassumption|]]; exists pp, n; rewrite !in_app_iff; auto.
    - inversion H as [? K|? c C K]; subst.
      + destruct (Bq r) as (pp & n & E & I); [apply ref_here; exact K|]. exists pp, n. rewrite in_app_iff. auto.
      + unfold children in C. cbn [s_items s_allOf s_oneOf s_anyOf s_not s_props s_addl s_patprops s_deps s_addl_items s_defs set_props] in C.
        assert (D : c = p \/ In c (children q)).
        { unfold children. pose proof (mset_in (s_props q) nm p c) as M. rewrite !in_app_iff in *. tauto. }
        destruct D as [->|D]; [destruct (Bp r K) as (pp & n & E & I)|destruct (Bq r) as (pp & n & E & I); [eapply ref_below; eassumption|]]; exists pp, n; rewrite !in_app_iff; auto.
  Qed.
  Lemma fields_sound fs : forall s l, backed l s -> match FIELDS fs s with Done s' r _ => backed (l ++ r) s' | Panic => True end.
  Proof.
    induction fs as [|f fs IH]; intros s l B; cbn [fields_to_schema]; [cbn; rewrite app_nil_r; exact B|].
    pose proof (step_sound f s l B) as H. destruct (STEP f s) as [s1 r1 e1|]; [|exact I]. cbn [bind]. specialize (IH s1 _ H). destruct (FIELDS fs s1); [|exact I].
    rewrite app_assoc. exact IH.
  Qed.
  Lemma spec_sound ti : sound (spec_to_schema order sorted imports allow_dangerous ig pm ti).
  Proof.
    unfold spec_to_schema. apply sound_type; [|apply (backed_typed [] "object" "")].
    pose proof (fields_sound (ti_fields ti) (set_type schema0 "object") [] (backed_typed [] "object" "")) as H. destruct (FIELDS _ _); exact H.
  Qed.
  Lemma info_sound ti : sound (info_to_schema order sorted imports allow_dangerous ig pm ti).
  Proof.
    unfold info_to_schema. destruct (ti_json ti); [|destruct (ti_text ti); [|apply spec_sound]].
    - destruct (with_markers order sorted (ti_markers ti) schema0) as [s r e|] eqn:E; [|exact I]. cbn [bind]. destruct (negb _).
      + cbn. apply backed_app. eapply backed_markers; [exact E|apply backed0].
      + pose proof (spec_sound ti) as H. destruct (spec_to_schema _ _ _ _ _ _ _); [|exact I]. apply backed_app_r, H.
    - destruct (with_markers order sorted (ti_markers ti) (set_type schema0 "string")) as [s r e|] eqn:E; [|exact I]. cbn [bind].
      assert (B : backed r s) by (eapply backed_markers; [exact E|apply (backed_typed _ "string" "")]).
      destruct (negb _); cbn; rewrite ?app_nil_r; exact B.
  Qed.
End Frames.
