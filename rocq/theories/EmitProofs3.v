(** * Proofs: the values of a declared type *)
From Coq Require Import List String Ascii Bool ZArith QArith Permutation Sorting.Sorted Lia.
From Verif Require Import GoLib GoLibFacts MapFacts SchemaModel RefModel ErrorsModel ValidSpec MarkModel MarkSpec MarkProofs MarkMeaning MarkOrder StructModel FlattenModel NeedModel FlattenSpec StructSpec
  StructProofs MarshalSpec MarshalProofs EmitSpec EmitProofs EmitProofs2.
Import ListNotations.
Open Scope nat_scope.
Open Scope string_scope.
Open Scope list_scope.

Lemma forall2_at {A B} (R : A -> B -> Prop) l l' x : Forall2 R l l' -> In x l -> exists a c y a' c', l = a ++ x :: c /\ l' = a' ++ y :: c' /\ R x y /\ Forall2 R c c'.
Proof.
  induction 1 as [|x0 y0 l l' H F IH]; intros Hi; [destruct Hi|]. destruct Hi as [->|Hi].
  - exists [], l, y0, [], l'. auto.
  - destruct (IH Hi) as (a & c & y & a' & c' & -> & -> & Ry & F'). exists (x0 :: a), c, y, (y0 :: a'), c'. auto.
Qed.
Lemma forall2_in_r {A B} (R : A -> B -> Prop) l l' y : Forall2 R l l' -> In y l' -> exists x, In x l /\ R x y.
Proof. induction 1 as [|x0 y0 l l' H F IH]; intros Hi; [destruct Hi|]. destruct Hi as [->|Hi]; [exists x0; cbn; auto|]. destruct (IH Hi) as (x & I & K). exists x. cbn. auto. Qed.

Section Types.
  Variable order : marker_values -> marker_values.
  Variable sorted : list (string * smarker) -> list (string * smarker).
  Hypothesis Ho : is_order order.
  Hypothesis Hs : sorts sorted.
  Variable allow_dangerous ig : bool.
  Variable imports : string -> string -> bool.
  Variable pkg_markers : string -> marker_values.
  Variable types : ident -> option tinfo.
  Variable presets : string -> list (string * schema).
  Variable O : oracles.
  Notation CONF := (conforms O ig pkg_markers types presets).
  Notation FITS := (fits O ig pkg_markers types presets).
  Notation HOLDS := (holds O ig pkg_markers types presets).
  Notation TTS pkg := (type_to_schema order sorted (imports pkg) allow_dangerous).
  Notation FIELDS pkg := (fields_to_schema order sorted (imports pkg) allow_dangerous ig).
  Notation GEN := (generated order sorted allow_dangerous ig imports pkg_markers).
  Notation refs_are := (refs_are ig pkg_markers types presets O).

  Lemma markers_applied ms b s r : tame_markers ms -> with_markers order sorted ms b = Done s r [] ->
    exists l li s1, one_list l /\ one_list li /\ (forall m, In m (markers_of ms false) <-> In m (map snd l)) /\ (forall m, In m (markers_of ms true) <-> In m (map snd li)) /\
      apply_all l b = (s1, []) /\ apply_items li s1 = (s, []) /\ r = [].
  Proof.
    intros (One & _). unfold with_markers. rewrite apply_markers_eq. cbv zeta. set (l := sorted (MarkOrder.part false _)). set (li := sorted (MarkOrder.part true _)). intros [= E1 E2 E3].
    apply map_eq_nil, app_eq_nil in E3 as [Ea Eb]. exists l, li, (fst (apply_all l b)).
    assert (P : forall bb, Permutation (map snd (MarkOrder.part bb (schema_markers (fun x => x) ms))) (map snd (sorted (MarkOrder.part bb (schema_markers order ms))))).
    { intros bb. apply Permutation_map, Permutation_sym. eapply Permutation_trans; [apply Hs|]. apply filter_perm, schema_markers_perm, Ho. }
    assert (K : forall bb, one_list (sorted (MarkOrder.part bb (schema_markers order ms))) /\ forall m, In m (markers_of ms bb) <-> In m (map snd (sorted (MarkOrder.part bb (schema_markers order ms))))).
    { intros bb. split; [split; [apply Hs|]|].
      - apply (allpairs_perm _ one_each_sym _ _ (P bb)). rewrite part_markers. apply pairwise_allpairs, One.
      - intros m. rewrite <- part_markers. split; apply Permutation_in; [apply P|apply Permutation_sym, P]. }
    repeat split; try apply K; auto.
    - destruct (apply_all l b). cbn in *. congruence.
    - destruct (apply_items li (fst (apply_all l b))). cbn in *. congruence.
  Qed.
  Lemma tame_excl ms : tame_markers ms -> forall x, x = markers_of ms false \/ x = markers_of ms true -> ~ In (MExclMax true) x /\ ~ In (MExclMin true) x.
  Proof. intros [_ H] x [->| ->]; apply H. Qed.

  (** A schema without parts *)
  Lemma leaf_applied sem ms t f d s r v : tame_markers ms -> with_markers order sorted ms (set_desc (typed t f) d) = Done s r [] -> null_free v = true ->
    (valid (with_refs O sem) s v = true <-> keeps O (markers_of ms false) t f v).
  Proof.
    intros Tm H Nv. destruct (markers_applied _ _ _ _ Tm H) as (l & li & s1 & L & Li & M & Mi & E & Ei & ->). destruct (tame_excl _ Tm _ (or_introl eq_refl)) as [Nx Nn].
    pose proof (apply_all_unchanged l (set_desc (typed t f) d)) as U. rewrite E in U. cbn [fst] in U.
    assert (I1 : s_items s1 = None) by (symmetry; apply U). destruct (items_none _ _ _ I1 Ei) as [-> ->].
    rewrite (applied_valid (with_refs O sem) l _ s1 _ d t f None [] v E eq_refl L M Nx Nn (null_free_not _ Nv)). split; [intros (K & _); exact K|].
    intros K. split; [exact K|]. repeat split; try reflexivity; destruct v; reflexivity.
  Qed.

  (** Fields *)
  Lemma fields_runs pkg pm fs : forall s s' r, FIELDS pkg pm fs s = Done s' r [] ->
    forall f n i q, In f fs -> plays ig pm f (Member n i q) ->
      exists b rb p, (if has_marker (fi_markers f) "kubebuilder:validation:Schemaless" then ret schema0 else TTS pkg Panic Panic "" [] (fi_type f)) = Done b rb [] /\ incl rb r /\
        with_markers order sorted (fi_markers f) (set_desc b (fi_doc f)) = Done p [] [].
  Proof.
    induction fs as [|f fs IH]; intros s s' r H g n i q Hin P; [destruct Hin|]. cbn [fields_to_schema] in H. apply bind_clean in H as (s1 & r1 & r2 & H1 & H2 & ->).
    destruct Hin as [->|Hin].
    - apply plays_role in P. unfold role_of in P. unfold field_step in H1. fold (is_hidden ig g) in H1. destruct (is_hidden ig g); [discriminate|].
      destruct (fi_json g) as [tag|]; [|discriminate]. destruct (_ && _) in P, H1; [discriminate|]. cbn zeta in H1. apply bind_clean in H1 as (b & r3 & r4 & H1 & H3 & ->).
      apply bind_clean in H3 as (p & r5 & r6 & H3 & H4 & ->). exists b, r3, p. split; [exact H1|]. split.
      + intros x Hx. rewrite !in_app_iff. auto.
      + rewrite H3. f_equal. apply with_markers_done in H3 as (_ & -> & _). reflexivity.
    - destruct (IH _ _ _ H2 g n i q Hin P) as (b & rb & p & K1 & K2 & K3). exists b, rb, p. split; [exact K1|]. split; [|exact K3]. intros x Hx. apply in_or_app. right. exact (K2 x Hx).
  Qed.
  Lemma field_holds pkg sem f b rb p r v : tame_markers (fi_markers f) ->
    (if has_marker (fi_markers f) "kubebuilder:validation:Schemaless" then ret schema0 else TTS pkg Panic Panic "" [] (fi_type f)) = Done b rb [] ->
    with_markers order sorted (fi_markers f) (set_desc b (fi_doc f)) = Done p r [] -> refs_are pkg sem rb -> null_free v = true ->
    (valid (with_refs O sem) p v = true <-> HOLDS pkg f v).
  Proof.
    intros Tm B W R Nv. destruct (has_marker (fi_markers f) "kubebuilder:validation:Schemaless") eqn:M.
    - injection B as <- <-. change schema0 with (typed "" "") in W. rewrite (leaf_applied sem _ "" "" _ _ _ v Tm W Nv). apply marked_iff in M. split.
      + intros K. apply holds_any; assumption.
      + intros K. inversion K; subst; [assumption|contradiction].
    - apply marked_false in M. destruct (markers_applied _ _ _ _ Tm W) as (l & li & s1 & L & Li & Ml & Mi & E & Ei & ->).
      rewrite (expr_fits order sorted Ho Hs allow_dangerous ig (imports pkg) pkg_markers types presets O pkg sem (fi_type f) b rb B R (fi_doc f) l li _ _ s1 p v L Li Ml Mi (tame_excl _ Tm) E Ei Nv). split.
      + intros K. apply holds_type; assumption.
      + intros K. inversion K; subst; [contradiction|assumption].
  Qed.
  Lemma refs_are_incl pkg sem a b : incl a b -> refs_are pkg sem b -> refs_are pkg sem a.
  Proof. intros I H p n v Hi. apply H, I, Hi. Qed.

  Lemma valid_parts OR r d a ps v : let s := set_desc (set_props (set_allOf (set_required (set_type schema0 "object") r) a) ps) d in
    valid OR (with_kw s kw0) v = true <-> (forall c, In c a -> valid OR c v = true) /\ (forall l n p x, v = JObj l -> In (n, p) ps -> mget String.eqb l n = Some x -> valid OR p x = true).
  Proof.
    cbn. replace (kw_ok OR kw0 v) with true by (destruct v; reflexivity). replace (on_arr v (fun _ => true)) with true by (destruct v; reflexivity). cbn [andb].
    replace (on_obj v (fun _ => true)) with true by (destruct v; reflexivity). cbn [andb].
    rewrite !andb_true_r, andb_true_iff, forallb_forall. apply and_iff_compat_l. rewrite on_obj_iff. split.
    - intros H l n p x -> Hi Hg. specialize (H l eq_refl). rewrite !andb_true_r, forallb_forall in H. specialize (H (n, p) Hi). cbn in H. rewrite Hg in H. exact H.
    - intros H l ->. rewrite !andb_true_r. apply forallb_forall. intros [n p] Hi. cbn. destruct (mget String.eqb l n) as [x|] eqn:Hg; [|reflexivity]. exact (H l n p x eq_refl Hi Hg).
  Qed.

  Lemma struct_fits (id : ident) sem ti s reqs v : tame_type ig (pkg_markers (fst id)) ti -> ti_raw ti = EStruct ->
    spec_to_schema order sorted (imports (fst id)) allow_dangerous ig (pkg_markers (fst id)) ti = Done s reqs [] -> refs_are (fst id) sem reqs -> null_free v = true ->
    (valid (with_refs O sem) s v = true <->
      keeps O (markers_of (ti_markers ti) false) "object" "" v /\
      (forall l f n i, v = JObj l -> In f (ti_fields ti) -> plays ig (pkg_markers (fst id)) f (Member n i true) -> mget String.eqb l n <> None) /\
      (forall l f n q x, v = JObj l -> In f (ti_fields ti) -> plays ig (pkg_markers (fst id)) f (Member n false q) -> mget String.eqb l n = Some x -> HOLDS (fst id) f x) /\
      (forall f n q, In f (ti_fields ti) -> plays ig (pkg_markers (fst id)) f (Member n true q) -> HOLDS (fst id) f v)).
  Proof.
    intros (Tm & Tf & _ & Dis) Er H R Nv. unfold spec_to_schema in H. rewrite Er in H. cbn [type_to_schema] in H. apply bind_clean in H as (s0 & r1 & r2 & H & W & ->).
    assert (r2 = []) as -> by (apply with_markers_done in W as (_ & -> & _); reflexivity). rewrite app_nil_r in R.
    pose proof (fields_runs _ _ _ _ _ _ H) as Runs. apply fields_parts in H as (xs & F & E0 & _). rewrite E0 in W. clear E0. rewrite parts_same in W.
    assert (Ok : Forall part_ok xs). { clear -F. induction F as [|f x fs xs C F IH]; constructor; [exact (con_ok _ _ _ _ _ _ _ _ C)|exact IH]. }
    destruct (markers_applied _ _ _ _ Tm W) as (l & li & s1 & L & Li & M & Mi & E & Ei & _). destruct (tame_excl _ Tm _ (or_introl eq_refl)) as [Nx Nn]. clear W.
    pose proof (apply_all_unchanged l (set_desc (set_props (set_allOf (set_required (set_type schema0 "object") (k_required (s_kw (fold_left add_part xs (set_type schema0 "object")))))
      (s_allOf (fold_left add_part xs (set_type schema0 "object")))) (s_props (fold_left add_part xs (set_type schema0 "object")))) (ti_doc ti))) as U. rewrite E in U. cbn [fst] in U.
    assert (I1 : s_items s1 = None) by (symmetry; apply U). destruct (items_none _ _ _ I1 Ei) as [-> ->]. clear U.
    rewrite (applied_valid (with_refs O sem) l _ s1 _ (ti_doc ti) "object" "" None (k_required (s_kw (fold_left add_part xs (set_type schema0 "object")))) v E eq_refl L M Nx Nn (null_free_not _ Nv)).
    rewrite valid_parts. rewrite parts_required, parts_allOf. change (k_required (s_kw (set_type schema0 "object"))) with (@nil string). change (s_allOf (set_type schema0 "object")) with (@nil schema). cbn [app].
    (* the schema of a field *)
    assert (Fp : forall f n i q p x, In f (ti_fields ti) -> contributes order sorted (imports (fst id)) allow_dangerous ig (pkg_markers (fst id)) f (Member n i q, Some p) -> null_free x = true ->
      (valid (with_refs O sem) p x = true <-> HOLDS (fst id) f x)).
    { intros f n i q p x Hf [C1 C2] Nx'. cbn in C1, C2. destruct C2 as (b & B1 & B2 & ->). destruct (Runs f n i q Hf C1) as (b' & rb & p' & Rb & Ri & Rw).
      assert (b' = b) as ->.
      { destruct (has_marker (fi_markers f) "kubebuilder:validation:Schemaless") eqn:Ms; [apply marked_iff in Ms; injection Rb as <-; symmetry; auto|].
        apply marked_false in Ms. destruct (B2 Ms) as (rr & ee & B). rewrite B in Rb. congruence. }
      pose proof Rw as Rw'. apply with_markers_done in Rw' as (Ep & _). rewrite <- Ep. apply (field_holds (fst id) sem f b rb p' []); auto.
      - apply (proj1 (Forall_forall _ _) Tf f Hf).
      - exact (refs_are_incl _ _ _ _ Ri R). }
    assert (Role : forall f n i q, In f (ti_fields ti) -> plays ig (pkg_markers (fst id)) f (Member n i q) ->
      exists p a c a' c', ti_fields ti = a ++ f :: c /\ xs = a' ++ (Member n i q, Some p) :: c' /\ contributes order sorted (imports (fst id)) allow_dangerous ig (pkg_markers (fst id)) f (Member n i q, Some p) /\
        Forall2 (contributes order sorted (imports (fst id)) allow_dangerous ig (pkg_markers (fst id))) c c').
    { intros f n i q Hf P. destruct (forall2_at _ _ _ _ F Hf) as (a & c & [ro o] & a' & c' & Ef & Ex & C & F'). assert (ro = Member n i q) as -> by (destruct C as [C _]; apply (role_unique _ _ _ _ _ C P)).
      destruct o as [p|]; [|destruct C as [_ []]]. exists p, a, c, a', c'. auto. }
    assert (Nv' : forall o n x, v = JObj o -> mget String.eqb o n = Some x -> null_free x = true).
    { intros o n x -> Hg. cbn in Nv. rewrite forallb_forall in Nv. apply (mget_in _ _ _ String.eqb_eq) in Hg. exact (Nv (n, x) Hg). }
    split.
    - intros (K & _ & Q & A & P). split; [exact K|]. split; [|split].
      + intros o f n i -> Hf Pf. destruct (Role f n i true Hf Pf) as (p & a & c & a' & c' & _ & Ex & _). cbn in Q. rewrite forallb_forall in Q. specialize (Q n). unfold has_key in Q.
        intros Z. rewrite Z in Q. discriminate Q. apply in_flat_map. exists (Member n i true, Some p). split; [rewrite Ex; apply in_elt|left; reflexivity].
      + intros o f n q x -> Hf Pf Hg. destruct (Role f n false q Hf Pf) as (p & a & c & a' & c' & Ef & Ex & C & F'). apply (Fp f n false q p x Hf C); [exact (Nv' _ _ _ eq_refl Hg)|].
        apply (P o n p x eq_refl); [|exact Hg]. apply (mget_in _ _ _ String.eqb_eq). apply (parts_props n xs Ok). left. exists a', q, c'. split; [exact Ex|].
        intros q' o' Hin. destruct (forall2_in_r _ _ _ _ F' Hin) as (g & Hg' & Cg & _). cbn in Cg. apply in_split in Hg' as (c1 & c2 & ->). exact (Dis a f c1 g c2 n q q' Ef Pf Cg).
      + intros f n q Hf Pf. destruct (Role f n true q Hf Pf) as (p & a & c & a' & c' & _ & Ex & C & _). apply (Fp f n true q p v Hf C Nv). apply A. apply in_flat_map. exists (Member n true q, Some p).
        split; [rewrite Ex; apply in_elt|left; reflexivity].
    - intros (K & Q & P & A). split; [exact K|]. split; [reflexivity|]. split; [|split].
      + apply on_obj_iff. intros o ->. apply forallb_forall. intros n Hn. apply in_flat_map in Hn as ([ro [p|]] & Hx & Hn); cbn in Hn; [|destruct Hn]. destruct ro as [| |n' i q]; try destruct Hn. destruct q; [|destruct Hn].
        destruct Hn as [->|[]]. destruct (forall2_in_r _ _ _ _ F Hx) as (f & Hf & Cf & _). cbn in Cf. unfold has_key. pose proof (Q o f n i eq_refl Hf Cf) as Z. destruct (mget String.eqb o n); [reflexivity|congruence].
      + intros c Hc. apply in_flat_map in Hc as ([ro o] & Hx & Hc). destruct ro as [| |n [] q]; try destruct Hc. destruct o as [p|]; [|destruct Hc]. destruct Hc as [->|[]].
        destruct (forall2_in_r _ _ _ _ F Hx) as (f & Hf & C). apply (Fp f n true q c v Hf C Nv). exact (A f n q Hf (proj1 C)).
      + intros o n p x -> Hp Hg. assert (Ep : mget String.eqb (s_props (fold_left add_part xs (set_type schema0 "object"))) n = Some p).
        { apply (in_mget _ _ _ String.eqb_eq); [|exact Hp]. apply parts_props_nodup. constructor. }
        apply (parts_props n xs Ok) in Ep. destruct Ep as [(pre & q & post & Exs & _)|[_ Ep]]; [|discriminate].
        assert (Hx : In (Member n false q, Some p) xs) by (rewrite Exs; apply in_elt). destruct (forall2_in_r _ _ _ _ F Hx) as (f & Hf & C).
        apply (Fp f n false q p x Hf C (Nv' _ _ _ eq_refl Hg)). exact (P o f n q x eq_refl Hf (proj1 C) Hg).
  Qed.

  Lemma spec_fits (id : ident) sem ti s reqs v : tame_type ig (pkg_markers (fst id)) ti -> ti_raw ti <> EStruct ->
    spec_to_schema order sorted (imports (fst id)) allow_dangerous ig (pkg_markers (fst id)) ti = Done s reqs [] -> refs_are (fst id) sem reqs -> null_free v = true ->
    (valid (with_refs O sem) s v = true <-> FITS (fst id) (ti_raw ti) (markers_of (ti_markers ti) false) (markers_of (ti_markers ti) true) v).
  Proof.
    intros (Tm & _ & Ns & _) Nr H R Nv. unfold spec_to_schema in H.
    assert (K : exists b r2, TTS (fst id) Panic Panic "" [] (ti_raw ti) = Done b reqs [] /\ with_markers order sorted (ti_markers ti) (set_desc b (ti_doc ti)) = Done s r2 []).
    { destruct (ti_raw ti) as [n t|t|sz e|key e|e| |]; try congruence; try (destruct (Ns e); reflexivity); cbn [type_to_schema] in H |- *; try discriminate;
        apply bind_clean in H as (b0 & r1 & r2 & H & W & ->); exists (set_desc b0 ""), r2; rewrite H; cbn [bind]; rewrite (unmarked_with order sorted Ho Hs [] _ unmarked_nil);
        (assert (r2 = []) as -> by (apply with_markers_done in W as (_ & -> & _); reflexivity)); (split; [reflexivity|]); destruct b0; exact W. }
    destruct K as (b & r2 & Hb & W). destruct (markers_applied _ _ _ _ Tm W) as (l & li & s1 & L & Li & Ml & Mi & E & Ei & _).
    exact (expr_fits order sorted Ho Hs allow_dangerous ig (imports (fst id)) pkg_markers types presets O (fst id) sem (ti_raw ti) b reqs Hb R (ti_doc ti) l li _ _ s1 s v L Li Ml Mi (tame_excl _ Tm) E Ei Nv).
  Qed.

  (** The type set by markers on nothing *)
  Lemma marked_type ms t s r : tame_markers ms -> with_markers order sorted ms (set_type schema0 t) = Done s r [] ->
    k_type (s_kw s) = t /\ (forall u, ~ In (MType u) (markers_of ms false)) \/ In (MType (k_type (s_kw s))) (markers_of ms false) /\ forall u, In (MType u) (markers_of ms false) -> u = k_type (s_kw s).
  Proof.
    intros Tm H. destruct (markers_applied _ _ _ _ Tm H) as (l & li & s1 & L & Li & M & Mi & E & Ei & ->). pose proof (apply_all_unchanged l (set_type schema0 t)) as U. rewrite E in U. cbn [fst] in U.
    assert (I1 : s_items s1 = None) by (symmetry; apply U). destruct (items_none _ _ _ I1 Ei) as [-> ->]. destruct (apply_all_marked l _ s1 _ L E M) as (Hc & Ha & _).
    destruct (has_keyword (markers_of ms false) KType) as [(m & Hi & Hk)|Hn].
    - destruct m; try discriminate. right. pose proof (Hc _ Hi) as C. cbn in C. rewrite C. split; [exact Hi|]. intros u Hu. pose proof (Hc _ Hu) as C'. cbn in C'. congruence.
    - left. split; [symmetry; apply (Ha KType Hn)|]. intros u Hu. exact (Hn _ Hu eq_refl).
  Qed.

  Lemma info_fits id sem ti s reqs v : mget String.eqb (presets (fst id)) (snd id) = None -> types id = Some ti -> tame_type ig (pkg_markers (fst id)) ti ->
    GEN id ti = Done s reqs [] -> refs_are (fst id) sem reqs -> null_free v = true -> (valid (with_refs O sem) s v = true <-> CONF id v).
  Proof.
    intros Np Ht Tt H R Nv. pose proof (proj1 Tt) as Tm. unfold generated, info_to_schema in H.
    (* by the type itself *)
    assert (Spec : (ti_json ti = true /\ (forall t, In (MType t) (markers_of (ti_markers ti) false) -> t = "") \/ ti_json ti = false /\ ti_text ti = false) ->
      spec_to_schema order sorted (imports (fst id)) allow_dangerous ig (pkg_markers (fst id)) ti = Done s reqs [] -> (valid (with_refs O sem) s v = true <-> CONF id v)).
    { intros J Hs'. assert (D : ti_raw ti <> EStruct \/ ti_raw ti = EStruct) by (destruct (ti_raw ti); auto; left; discriminate). destruct D as [Nr|Er].
      { rewrite (spec_fits id sem ti s reqs v Tt Nr Hs' R Nv). split.
        - intros F. eapply con_spec; eassumption.
        - intros C. inversion C as [? s' ? P|? ti' t ? P T J' Mt Nt K|? ti' ? P T J' X K|? ti' ? P T J' Nr' F|? ti' ? P T J' Er' K Q A B]; subst.
          + congruence.
          + exfalso. assert (ti' = ti) as -> by congruence. destruct J as [[_ J]|[J _]]; [exact (Nt (J _ Mt))|congruence].
          + exfalso. assert (ti' = ti) as -> by congruence. destruct J as [[J _]|[J J2]]; congruence.
          + assert (ti' = ti) as -> by congruence. exact F.
          + exfalso. assert (ti' = ti) as -> by congruence. congruence. }
      rewrite (struct_fits id sem ti s reqs v Tt Er Hs' R Nv). split.
      - intros (K & Q & A & B). eapply con_struct; eassumption.
      - intros C. inversion C as [? s' ? P|? ti' t ? P T J' Mt Nt K|? ti' ? P T J' X K|? ti' ? P T J' Nr' F|? ti' ? P T J' Er' K Q A B]; subst.
        + congruence.
        + exfalso. assert (ti' = ti) as -> by congruence. destruct J as [[_ J]|[J _]]; [exact (Nt (J _ Mt))|congruence].
        + exfalso. assert (ti' = ti) as -> by congruence. destruct J as [[J _]|[J J2]]; congruence.
        + exfalso. assert (ti' = ti) as -> by congruence. congruence.
        + assert (ti' = ti) as -> by congruence. repeat split; try apply K; auto. }
    destruct (ti_json ti) eqn:Ej.
    - apply bind_clean in H as (s0 & r1 & r2 & W & H & ->). pose proof (marked_type _ "" _ _ Tm W) as Mt. assert (r1 = []) as -> by (apply with_markers_done in W as (_ & -> & _); reflexivity). cbn [app] in *.
      destruct (String.eqb (k_type (s_kw s0)) "") eqn:Et; cbn [negb] in H.
      + apply String.eqb_eq in Et. apply Spec; [|exact H]. left. split; [reflexivity|]. intros t Hi. destruct Mt as [[_ N]|[_ N]]; [destruct (N _ Hi)|rewrite (N _ Hi); exact Et].
      + apply String.eqb_neq in Et. injection H as <- <-. destruct Mt as [[Z _]|[Hi _]]; [contradiction|]. rewrite (leaf_applied sem _ "" "" "" s0 [] v Tm W Nv). split.
        * intros K. eapply con_json; eassumption.
        * intros C. inversion C as [? s' ? P|? ti' t ? P T J' Mt Nt K|? ti' ? P T J' X K|? ti' ? P T J' Nr' F|? ti' ? P T J' Er' K Q A B]; subst; try congruence; assert (ti' = ti) as -> by congruence.
          -- exfalso. destruct J' as [[_ J']|[J' _]]; [exact (Et (J' _ Hi))|congruence].
          -- exfalso. destruct J' as [[_ J']|[J' _]]; [exact (Et (J' _ Hi))|congruence].
    - destruct (ti_text ti) eqn:Ex.
      + apply bind_clean in H as (s0 & r1 & r2 & W & H & ->). destruct (negb _) in H; [discriminate|]. injection H as <- <-. rewrite (leaf_applied sem _ "string" "" "" s0 r1 v Tm W Nv). split.
        * intros K. eapply con_text; eassumption.
        * intros C. inversion C as [? s' ? P|? ti' t ? P T J' Mt Nt K|? ti' ? P T J' X K|? ti' ? P T J' Nr' F|? ti' ? P T J' Er' K Q A B]; subst; try congruence; assert (ti' = ti) as -> by congruence.
          -- exfalso. destruct J' as [[J' _]|[_ J']]; congruence.
          -- exfalso. destruct J' as [[J' _]|[_ J']]; congruence.
      + apply Spec; [right; auto|exact H].
  Qed.
End Types.
