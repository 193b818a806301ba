(** * Proofs about the parser's schema cache. *)
From Coq Require Import List String Bool Lia Arith.
From Verif Require Import GoLib GoLibFacts MapFacts SchemaModel RefModel MarkModel MarkSpec StructModel FlattenModel FlattenProofs6 NeedModel StructSpec StructProofs.
Import ListNotations.
Open Scope string_scope.
Open Scope list_scope.

Section Need.
  Variable order : marker_values -> marker_values.
  Variable sorted : list (string * smarker) -> list (string * smarker).
  Variable allow_dangerous ignore_unexported : bool.
  Variable imports : string -> string -> bool.
  Variable pkg_markers : string -> marker_values.
  Variable types : ident -> option tinfo.
  Variable presets : string -> list (string * schema).
  Notation NEED := (need order sorted allow_dangerous ignore_unexported imports pkg_markers types presets).
  Notation ALL := (need_all order sorted allow_dangerous ignore_unexported imports pkg_markers types presets).
  Notation NP := (need_package presets).
  Notation GEN := (generated order sorted allow_dangerous ignore_unexported imports pkg_markers).
  Notation SO := (schema_of order sorted allow_dangerous ignore_unexported imports pkg_markers types presets).
  Notation NEEDED := (needed order sorted allow_dangerous ignore_unexported imports pkg_markers types presets).
  Notation preset id := (mget String.eqb (presets (fst id)) (snd id)).
  Notation known st id := (mget ident_eqb (ps_schemata st) id).
  Hypothesis Hpre : forall p, NoDup (map fst (presets p)).

  Fixpoint serve (n : nat) (id : ident) (l : list (string * string)) (st : pstate) : nres :=
    match l with [] => NDone st | r :: l' => match NEED n (target id r) st with NDone st' => serve n id l' st' | x => x end end.
  Lemma need_eq n id st : NEED (S n) id st =
    let st1 := NP (fst id) st in
    match known st1 id with
    | Some _ => NDone st1
    | None => match types id with
      | None => NDone (add_errs st1 (fst id) [PUnknown (snd id)])
      | Some ti => match GEN id ti with
        | Panic => NPanic
        | Done s reqs errs => match serve n id reqs (put st1 id schema0) with
            | NDone st2 => NDone (add_errs (put st2 id s) (fst id) (map PGen errs))
            | x => x end
        end end end.
  Proof.
    cbn [need]. cbv zeta. destruct (mget ident_eqb _ _); [reflexivity|]. destruct (types id) as [ti|]; [|reflexivity].
    unfold generated. destruct (info_to_schema _ _ _ _ _ _ ti) as [s reqs errs|]; [|reflexivity].
    match goal with |- match ?f reqs ?x with _ => _ end = _ => assert (E : forall l st', f l st' = serve n id l st') end.
    { induction l as [|r l IH]; intros st'; cbn [serve]; [reflexivity|]. destruct (NEED n (target id r) st'); auto. }
    rewrite E. reflexivity.
  Qed.

  (** ** Packages *)
  Lemma put_known st id s id' : known (put st id s) id' = if ident_eqb id' id then Some s else known st id'.
  Proof.
    destruct (ident_eqb id' id) eqn:E.
    - apply ident_eqb_eq in E as ->. apply iget_put_eq.
    - apply iget_put_neq. intros ->. rewrite (proj2 (ident_eqb_eq id id) eq_refl) in E. discriminate.
  Qed.
  Lemma fold_put p l : NoDup (map fst l) -> forall st id,
    known (fold_left (fun st x => put st (p, fst x) (snd x)) l st) id =
      match (if String.eqb (fst id) p then mget String.eqb l (snd id) else None) with Some s => Some s | None => known st id end.
  Proof.
    intros N. induction l as [|[n s] l IH]; intros st id; cbn [fold_left].
    - destruct (String.eqb (fst id) p); reflexivity.
    - inversion N as [|? ? N1 N2]; subst. rewrite (IH N2). rewrite put_known. cbn [fst snd mget].
      destruct (String.eqb (fst id) p) eqn:Ep.
      + apply String.eqb_eq in Ep. destruct (String.eqb (snd id) n) eqn:En.
        * apply String.eqb_eq in En. subst n. destruct (mget String.eqb l (snd id)) eqn:E.
          { apply (mget_in _ _ _ String.eqb_eq) in E. exfalso. apply N1. apply (in_map fst) in E. exact E. }
          replace (ident_eqb id (p, snd id)) with true; [reflexivity|]. symmetry. apply ident_eqb_eq. destruct id; cbn in *; congruence.
        * destruct (mget String.eqb l (snd id)); [reflexivity|]. replace (ident_eqb id (p, n)) with false; [reflexivity|].
          symmetry. apply not_true_iff_false. intros K. apply ident_eqb_eq in K. subst id. cbn in En. rewrite String.eqb_refl in En. discriminate.
      + replace (ident_eqb id (p, n)) with false; [reflexivity|]. symmetry. apply not_true_iff_false. intros K. apply ident_eqb_eq in K. subst id. cbn in Ep. rewrite String.eqb_refl in Ep. discriminate.
  Qed.
  Lemma fold_put_rest p l : forall st, ps_loaded (fold_left (fun st x => put st (p, fst x) (snd x)) l st) = ps_loaded st /\ ps_errs (fold_left (fun st x => put st (p, fst x) (snd x)) l st) = ps_errs st.
  Proof. induction l as [|x l IH]; intros st; cbn [fold_left]; [auto|]. apply (IH (put st (p, fst x) (snd x))). Qed.
  Lemma np_known p st id : known (NP p st) id =
    if mem_str p (ps_loaded st) then known st id
    else match (if String.eqb (fst id) p then preset id else None) with Some s => Some s | None => known st id end.
  Proof.
    unfold need_package. destruct (mem_str p (ps_loaded st)); [reflexivity|]. cbn [ps_schemata]. rewrite (fold_put p _ (Hpre p)).
    destruct (String.eqb (fst id) p) eqn:E; [|reflexivity]. apply String.eqb_eq in E. rewrite E. reflexivity.
  Qed.
  Lemma np_loaded p st q : In q (ps_loaded (NP p st)) <-> q = p \/ In q (ps_loaded st).
  Proof.
    unfold need_package. destruct (mem_str p (ps_loaded st)) eqn:E.
    - apply mem_str_spec in E. split; [auto|]. intros [->|H]; assumption.
    - cbn [ps_loaded In]. rewrite (proj1 (fold_put_rest _ _ _)). split; intros [H|H]; auto.
  Qed.
  Lemma np_errs p st : ps_errs (NP p st) = ps_errs st.
  Proof. unfold need_package. destruct (mem_str p (ps_loaded st)); [reflexivity|]. apply fold_put_rest. Qed.

  (** ** Growth *)
  Definition ext (a b : pstate) : Prop :=
    (forall id, known a id <> None -> known b id <> None) /\ incl (ps_loaded a) (ps_loaded b) /\ incl (ps_errs a) (ps_errs b).
  Lemma ext_refl a : ext a a.
  Proof. repeat split; auto using incl_refl. Qed.
  Lemma ext_trans a b c : ext a b -> ext b c -> ext a c.
  Proof. intros (A1 & A2 & A3) (B1 & B2 & B3). repeat split; eauto using incl_tran. Qed.
  Lemma ext_np p st : ext st (NP p st).
  Proof.
    repeat split.
    - intros id. rewrite np_known. destruct (mem_str _ _); [auto|]. destruct (if String.eqb (fst id) p then preset id else None); [discriminate|auto].
    - intros q H. apply np_loaded. auto.
    - rewrite np_errs. apply incl_refl.
  Qed.
  Lemma ext_put st id s : ext st (put st id s).
  Proof. repeat split; try apply incl_refl. intros id'. rewrite put_known. destruct (ident_eqb id' id); [discriminate|auto]. Qed.
  Lemma ext_errs st p l : ext st (add_errs st p l).
  Proof. repeat split; auto using incl_refl. cbn. apply incl_appl, incl_refl. Qed.
  Lemma need_ext n : forall id st st', NEED n id st = NDone st' -> ext st st'.
  Proof.
    induction n as [|n IH]; intros id st st' H; [discriminate|]. rewrite need_eq in H. cbv zeta in H.
    destruct (known (NP (fst id) st) id); [injection H as <-; apply ext_np|].
    destruct (types id) as [ti|]; [|injection H as <-; eapply ext_trans; [apply ext_np|apply ext_errs]].
    destruct (GEN id ti) as [s reqs errs|]; [|discriminate]. destruct (serve _ _ _ _) as [st2| |] eqn:E; try discriminate. injection H as <-.
    assert (K : forall l a b, serve n id l a = NDone b -> ext a b).
    { induction l as [|r l IHl]; intros a b Hs; cbn [serve] in Hs; [injection Hs as <-; apply ext_refl|].
      destruct (NEED n (target id r) a) as [c| |] eqn:En; try discriminate. eapply ext_trans; [apply (IH _ _ _ En)|]. apply IHl, Hs. }
    eapply ext_trans; [apply ext_np|]. eapply ext_trans; [apply (ext_put _ id schema0)|]. eapply ext_trans; [apply (K _ _ _ E)|].
    eapply ext_trans; [apply (ext_put _ id s)|]. apply ext_errs.
  Qed.
  Lemma serve_ext n id l : forall a b, serve n id l a = NDone b -> ext a b.
  Proof.
    induction l as [|r l IHl]; intros a b Hs; cbn [serve] in Hs; [injection Hs as <-; apply ext_refl|].
    destruct (NEED n (target id r) a) as [c| |] eqn:En; try discriminate. eapply ext_trans; [apply (need_ext _ _ _ _ En)|]. apply IHl, Hs.
  Qed.

  (** ** Termination *)
  Section Fuel.
    Variable U : list ident.
    Hypothesis HU : forall id, types id <> None -> In id U.
    Definition unknowns (st : pstate) : nat := List.length (filter (fun id => match known st id with None => true | Some _ => false end) U).
    Lemma filter_le {A} (p q : A -> bool) l : (forall x, p x = true -> q x = true) -> List.length (filter p l) <= List.length (filter q l).
    Proof.
      intros H. induction l as [|x l IH]; [apply le_n|]. cbn. destruct (p x) eqn:E; [rewrite (H x E); cbn; lia|]. destruct (q x); cbn; lia.
    Qed.
    Lemma filter_lt {A} (p q : A -> bool) l x : (forall x, p x = true -> q x = true) -> In x l -> p x = false -> q x = true -> List.length (filter p l) < List.length (filter q l).
    Proof.
      intros H Hx P Q. induction l as [|y l IH]; [destruct Hx|]. cbn. destruct Hx as [->|Hx].
      - rewrite P, Q. cbn. pose proof (filter_le p q l H). lia.
      - specialize (IH Hx). destruct (p y) eqn:E; [rewrite (H y E); cbn; lia|]. destruct (q y); cbn; lia.
    Qed.
    Lemma unknowns_ext a b : ext a b -> unknowns b <= unknowns a.
    Proof.
      intros (E & _). apply filter_le. intros id. specialize (E id). destruct (known b id) eqn:Eb; [discriminate|]. intros _. destruct (known a id); [exfalso; apply E; [discriminate|reflexivity]|reflexivity].
    Qed.
    Lemma unknowns_put st id s : types id <> None -> known st id = None -> unknowns (put st id s) < unknowns st.
    Proof.
      intros T K. apply (filter_lt _ _ _ id).
      - intros x. rewrite put_known. destruct (ident_eqb x id); [discriminate|auto].
      - apply HU, T.
      - rewrite put_known, (proj2 (ident_eqb_eq id id) eq_refl). reflexivity.
      - rewrite K. reflexivity.
    Qed.
    Lemma need_fuel n : forall id st, unknowns st < n -> NEED n id st <> NFuel.
    Proof.
      induction n as [|n IH]; intros id st L; [lia|]. rewrite need_eq. cbv zeta. pose proof (unknowns_ext _ _ (ext_np (fst id) st)) as L1.
      destruct (known (NP (fst id) st) id) eqn:Ek; [discriminate|]. destruct (types id) as [ti|] eqn:Et; [|discriminate].
      destruct (GEN id ti) as [s reqs errs|]; [|discriminate].
      assert (L2 : unknowns (put (NP (fst id) st) id schema0) < n).
      { pose proof (unknowns_put (NP (fst id) st) id schema0) as H. rewrite Et in H. specialize (H ltac:(discriminate) Ek). lia. }
      assert (K : forall l a, unknowns a < n -> serve n id l a <> NFuel).
      { clear -IH Hpre. induction l as [|r l IHl]; intros a La; cbn [serve]; [discriminate|]. pose proof (IH (target id r) a La) as N.
        destruct (NEED n (target id r) a) as [c| |] eqn:En; try congruence. apply IHl. pose proof (unknowns_ext _ _ (need_ext _ _ _ _ En)). lia. }
      specialize (K reqs _ L2). destruct (serve _ _ _ _); congruence.
    Qed.
    Lemma all_fuel n ids : forall st, unknowns st < n -> ALL n ids st <> NFuel.
    Proof.
      induction ids as [|id ids IH]; intros st L; cbn [need_all]; [discriminate|]. pose proof (need_fuel n id st L) as N.
      destruct (NEED n id st) as [c| |] eqn:En; try congruence. apply IH. pose proof (unknowns_ext _ _ (need_ext _ _ _ _ En)). lia.
    Qed.
    Lemma unknowns_all st : unknowns st <= List.length U.
    Proof. unfold unknowns. clear HU. induction U as [|x l IH]; cbn; [lia|]. destruct (mget ident_eqb (ps_schemata st) x); cbn; lia. Qed.
  End Fuel.

  (** ** What is stored *)
  Definition ans (st : pstate) (id : ident) : Prop := answered st id /\ In (fst id) (ps_loaded st).
  Definition settled (st : pstate) (id : ident) (s : schema) : Prop :=
    preset id = Some s \/
    (preset id = None /\ exists ti reqs errs, types id = Some ti /\ GEN id ti = Done s reqs errs /\
      (forall r, In r reqs -> ans st (target id r)) /\ (forall e, In e errs -> In (fst id, PGen e) (ps_errs st))).
  Record inv (roots : list ident) (W : list ident) (st : pstate) : Prop := {
    i_loaded : forall id, known st id <> None -> In (fst id) (ps_loaded st);
    i_preset : forall id s, In (fst id) (ps_loaded st) -> preset id = Some s -> known st id = Some s;
    i_settled : forall id s, known st id = Some s -> In id W \/ settled st id s;
    i_wip : forall id, In id W -> known st id <> None;
    i_unknown : forall p n, In (p, PUnknown n) (ps_errs st) -> preset (p, n) = None /\ types (p, n) = None;
    i_errs : forall p e, In (p, PGen e) (ps_errs st) -> exists id ti s reqs errs, fst id = p /\ preset id = None /\ types id = Some ti /\ GEN id ti = Done s reqs errs /\ In e errs;
    i_needed : forall id, known st id <> None -> preset id <> None \/ NEEDED roots id;
    i_pkgs : forall p, In p (ps_loaded st) -> exists id, NEEDED roots id /\ fst id = p }.
  Lemma answered_ext a b id : ext a b -> ans a id -> ans b id.
  Proof. intros (E1 & E2 & E3) [[H|H] L]; (split; [|apply E2, L]); [left; apply E1, H|right; apply E3, H]. Qed.
  Lemma settled_ext a b id s : ext a b -> settled a id s -> settled b id s.
  Proof.
    intros E [H|(P & ti & reqs & errs & T & G & A & R)]; [left; exact H|]. right. split; [exact P|]. exists ti, reqs, errs. split; [assumption|]. split; [assumption|]. split.
    - intros r Hr. eapply answered_ext; eauto.
    - intros e He. destruct E as (_ & _ & E). auto.
  Qed.
  Lemma inv_np roots W id st : NEEDED roots id -> inv roots W st -> inv roots W (NP (fst id) st).
  Proof.
    intros Hn I. pose proof (ext_np (fst id) st) as E. destruct (mem_str (fst id) (ps_loaded st)) eqn:Em.
    { unfold need_package. rewrite Em. exact I. }
    assert (K : forall id', known (NP (fst id) st) id' = match (if String.eqb (fst id') (fst id) then preset id' else None) with Some s => Some s | None => known st id' end).
    { intros id'. rewrite np_known, Em. reflexivity. }
    assert (U : forall id', fst id' = fst id -> known st id' = None).
    { intros id' Hf. destruct (known st id') eqn:Ek; [|reflexivity]. exfalso. pose proof (i_loaded _ _ _ I id') as L. rewrite Ek, Hf in L. specialize (L ltac:(discriminate)). apply mem_str_spec in L. congruence. }
    constructor.
    - intros id' H. apply np_loaded. rewrite K in H. destruct (String.eqb (fst id') (fst id)) eqn:Ep; [apply String.eqb_eq in Ep; auto|]. right. apply (i_loaded _ _ _ I), H.
    - intros id' s L P. rewrite K. apply np_loaded in L. destruct (String.eqb (fst id') (fst id)) eqn:Ep; [rewrite P; reflexivity|].
      destruct L as [L|L]; [rewrite L, String.eqb_refl in Ep; discriminate|]. apply (i_preset _ _ _ I); assumption.
    - intros id' s H. rewrite K in H. destruct (if String.eqb (fst id') (fst id) then preset id' else None) as [s'|] eqn:Ep.
      + injection H as ->. right. left. destruct (String.eqb (fst id') (fst id)); [exact Ep|discriminate].
      + destruct (i_settled _ _ _ I _ _ H) as [Hw|Hs]; [left; exact Hw|right; eapply settled_ext; eassumption].
    - intros id' Hw. apply E, (i_wip _ _ _ I), Hw.
    - intros p n. rewrite np_errs. apply (i_unknown _ _ _ I).
    - intros p e. rewrite np_errs. apply (i_errs _ _ _ I).
    - intros id' H. rewrite K in H. destruct (if String.eqb (fst id') (fst id) then preset id' else None) as [s'|] eqn:Ep.
      + left. destruct (String.eqb (fst id') (fst id)); [congruence|discriminate].
      + apply (i_needed _ _ _ I), H.
    - intros p L. apply np_loaded in L as [->|L]; [exists id; auto|]. apply (i_pkgs _ _ _ I), L.
  Qed.
  Lemma need_inv n : forall roots W id st st', inv roots W st -> NEEDED roots id -> NEED n id st = NDone st' -> inv roots W st' /\ ans st' id.
  Proof.
    induction n as [|n IH]; intros roots W id st st' I Hn H; [discriminate|]. rewrite need_eq in H. cbv zeta in H.
    pose proof (inv_np roots W id st Hn I) as I1. set (st1 := NP (fst id) st) in *.
    assert (L1 : In (fst id) (ps_loaded st1)) by (apply np_loaded; auto). clearbody st1. clear I st.
    destruct (known st1 id) eqn:Ek; [injection H as <-; split; [exact I1|split; [left; congruence|exact L1]]|].
    assert (P : preset id = None). { destruct (preset id) as [s|] eqn:Ep; [|reflexivity]. rewrite (i_preset _ _ _ I1 _ _ L1 Ep) in Ek. discriminate. }
    destruct (types id) as [ti|] eqn:Et.
    2: { injection H as <-. assert (E : ext st1 (add_errs st1 (fst id) [PUnknown (snd id)])) by apply ext_errs. split; [|split; [right; cbn; apply in_or_app; right; left; reflexivity|exact L1]].
      constructor; cbn [add_errs ps_schemata ps_loaded ps_errs]; try apply I1.
      - intros id' s K. destruct (i_settled _ _ _ I1 _ _ K) as [Hw|Hs]; [left; exact Hw|right; eapply settled_ext; eassumption].
      - intros p m K. apply in_app_or in K as [K|K]; [apply (i_unknown _ _ _ I1), K|]. destruct K as [[= <- <-]|[]]. destruct id. auto.
      - intros p e K. apply in_app_or in K as [K|K]; [apply (i_errs _ _ _ I1), K|]. destruct K as [K|[]]; discriminate. }
    destruct (GEN id ti) as [s reqs errs|] eqn:Eg; [|discriminate]. destruct (serve _ _ _ _) as [st2| |] eqn:Es; try discriminate. injection H as <-.
    assert (E0 : ext st1 (put st1 id schema0)) by apply ext_put.
    assert (I2 : inv roots (id :: W) (put st1 id schema0)).
    { constructor; try apply I1.
      - intros id' K. rewrite put_known in K. destruct (ident_eqb id' id) eqn:E; [apply ident_eqb_eq in E as ->; exact L1|]. apply (i_loaded _ _ _ I1), K.
      - intros id' s' L P'. rewrite put_known. destruct (ident_eqb id' id) eqn:E; [apply ident_eqb_eq in E as ->; congruence|]. apply (i_preset _ _ _ I1); assumption.
      - intros id' s' K. rewrite put_known in K. destruct (ident_eqb id' id) eqn:E; [apply ident_eqb_eq in E as ->; left; left; reflexivity|].
        destruct (i_settled _ _ _ I1 _ _ K) as [Hw|Hs]; [left; right; exact Hw|right; eapply settled_ext; eassumption].
      - intros id' [<-|Hw]; rewrite put_known; [rewrite (proj2 (ident_eqb_eq id id) eq_refl); discriminate|]. destruct (ident_eqb id' id); [discriminate|]. apply (i_wip _ _ _ I1), Hw.
      - intros id' K. rewrite put_known in K. destruct (ident_eqb id' id) eqn:E; [apply ident_eqb_eq in E as ->; right; exact Hn|]. apply (i_needed _ _ _ I1), K. }
    assert (K : forall l a b, (forall r, In r l -> In r reqs) -> inv roots (id :: W) a -> serve n id l a = NDone b -> inv roots (id :: W) b /\ forall r, In r l -> ans b (target id r)).
    { induction l as [|r l IHl]; intros a b Hi Ia Hs; cbn [serve] in Hs; [injection Hs as <-; split; [exact Ia|intros ? []]|].
      destruct (NEED n (target id r) a) as [c| |] eqn:En; try discriminate.
      destruct (IH roots (id :: W) (target id r) a c Ia) as [Ic Ac]; [eapply needed_by; try eassumption; apply Hi; left; reflexivity|exact En|].
      destruct (IHl c b) as [Ib Ab]; [intros x Hx; apply Hi; right; exact Hx|exact Ic|exact Hs|]. split; [exact Ib|]. intros r' [<-|Hr]; [|apply Ab, Hr].
      eapply answered_ext; [eapply serve_ext; exact Hs|exact Ac]. }
    destruct (K _ _ _ (fun r h => h) I2 Es) as [I3 A3]. clear K.
    set (st3 := add_errs (put st2 id s) (fst id) (map PGen errs)). assert (E3 : ext st2 st3) by (eapply ext_trans; [apply ext_put|apply ext_errs]).
    assert (K3 : forall id', known st3 id' = if ident_eqb id' id then Some s else known st2 id') by (intros; apply put_known).
    split; [|split; [left; rewrite K3, (proj2 (ident_eqb_eq id id) eq_refl); discriminate|apply E3; apply (serve_ext _ _ _ _ _ Es); exact L1]].
    constructor.
    - intros id' K. rewrite K3 in K. destruct (ident_eqb id' id) eqn:E; [apply ident_eqb_eq in E as ->; apply E3; apply (serve_ext _ _ _ _ _ Es); exact L1|]. apply (i_loaded _ _ _ I3), K.
    - intros id' s' L P'. rewrite K3. destruct (ident_eqb id' id) eqn:E; [apply ident_eqb_eq in E as ->; congruence|]. apply (i_preset _ _ _ I3); assumption.
    - intros id' s' K. rewrite K3 in K. destruct (ident_eqb id' id) eqn:E.
      + apply ident_eqb_eq in E as ->. injection K as <-. right. right. split; [exact P|]. exists ti, reqs, errs. split; [assumption|]. split; [assumption|]. split.
        * intros r Hr. eapply answered_ext; [exact E3|apply A3, Hr].
        * intros e He. cbn. apply in_or_app. right. apply in_map, in_map, He.
      + destruct (i_settled _ _ _ I3 _ _ K) as [[->|Hw]|Hs]; [rewrite (proj2 (ident_eqb_eq id' id') eq_refl) in E; discriminate|left; exact Hw|right; eapply settled_ext; eassumption].
    - intros id' Hw. rewrite K3. destruct (ident_eqb id' id); [discriminate|]. apply (i_wip _ _ _ I3). right. exact Hw.
    - intros p m K. cbn in K. apply in_app_or in K as [K|K]; [apply (i_unknown _ _ _ I3), K|]. apply in_map_iff in K as (x & [= _ ->] & K). apply in_map_iff in K as (? & [=] & _).
    - intros p e K. cbn in K. apply in_app_or in K as [K|K]; [apply (i_errs _ _ _ I3), K|]. apply in_map_iff in K as (x & [= <- ->] & K). apply in_map_iff in K as (? & [= ->] & K). exists id, ti, s, reqs, errs. auto.
    - intros id' K. rewrite K3 in K. destruct (ident_eqb id' id) eqn:E; [apply ident_eqb_eq in E as ->; right; exact Hn|]. apply (i_needed _ _ _ I3), K.
    - intros p L. apply (i_pkgs _ _ _ I3), L.
  Qed.
  Definition start : pstate := mkPS [] [] [].
  Lemma inv_start roots : inv roots [] start.
  Proof. constructor; cbn; intros; try tauto; try discriminate. Qed.
  Lemma all_inv n roots ids : forall st st', (forall id, In id ids -> In id roots) -> inv roots [] st -> ALL n ids st = NDone st' -> inv roots [] st' /\ ext st st' /\ forall id, In id ids -> ans st' id.
  Proof.
    induction ids as [|id ids IH]; intros st st' Hi I H; cbn [need_all] in H; [injection H as <-; split; [exact I|split; [apply ext_refl|intros ? []]]|].
    destruct (NEED n id st) as [c| |] eqn:En; try discriminate. destruct (need_inv n roots [] id st c I) as [Ic Ac]; [apply needed_root, Hi; left; reflexivity|exact En|].
    destruct (IH c st') as (Is & Es & As); [intros x Hx; apply Hi; right; exact Hx|exact Ic|exact H|]. split; [exact Is|]. split; [eapply ext_trans; [eapply need_ext; exact En|exact Es]|].
    intros x [<-|Hx]; [eapply answered_ext; eassumption|apply As, Hx].
  Qed.
  Lemma settled_schema st id s : settled st id s -> SO id = Some s.
  Proof. unfold schema_of. intros [->|(P & ti & reqs & errs & T & G & _)]; [reflexivity|]. rewrite P, T, G. reflexivity. Qed.
  Lemma all_needed n ids st : ALL n ids start = NDone st -> forall id, NEEDED ids id -> ans st id.
  Proof.
    intros H id Hn. destruct (all_inv n ids ids _ _ (fun x h => h) (inv_start ids) H) as (I & _ & A). induction Hn as [id Hi|id ti s reqs errs r Hn IH P T G Hr]; [apply A, Hi|].
    assert (K : known st id = Some s).
    { destruct IH as [[K|K] _].
      - destruct (known st id) as [s'|] eqn:E; [|congruence]. destruct (i_settled _ _ _ I _ _ E) as [[]|S]. apply settled_schema in S. unfold schema_of in S. rewrite P, T, G in S. congruence.
      - destruct (i_unknown _ _ _ I _ _ K) as [_ N]. destruct id. cbn in *. congruence. }
    destruct (i_settled _ _ _ I _ _ K) as [[]|[Q|(_ & ti' & reqs' & errs' & T' & G' & A' & _)]]; [congruence|]. apply A'. congruence.
  Qed.
  Lemma all_known n ids st : ALL n ids start = NDone st -> forall id s,
    known st id = Some s <-> SO id = Some s /\ (NEEDED ids id \/ (preset id <> None /\ exists id', NEEDED ids id' /\ fst id' = fst id)).
  Proof.
    intros H id s. destruct (all_inv n ids ids _ _ (fun x h => h) (inv_start ids) H) as (I & _ & _). split.
    - intros K. destruct (i_settled _ _ _ I _ _ K) as [[]|S]. split; [exact (settled_schema _ _ _ S)|].
      destruct (i_needed _ _ _ I id) as [P|N]; [congruence| |auto]. right. split; [exact P|]. apply (i_pkgs _ _ _ I). apply (i_loaded _ _ _ I). congruence.
    - intros [S N].
      assert (K : known st id <> None).
      { destruct N as [N|[P (id' & N & F)]].
        - destruct (all_needed _ _ _ H _ N) as [[K|K] _]; [exact K|]. exfalso. destruct (i_unknown _ _ _ I _ _ K) as [P T]. destruct id. cbn in *. unfold schema_of in S. cbn in S. rewrite P, T in S. discriminate.
        - destruct (preset id) as [s'|] eqn:P'; [|congruence]. rewrite (i_preset _ _ _ I id s'); [discriminate| |exact P']. rewrite <- F.
          apply (all_needed _ _ _ H _ N). }
      destruct (known st id) as [s'|] eqn:E; [|congruence]. destruct (i_settled _ _ _ I _ _ E) as [[]|S']. apply settled_schema in S'. congruence.
  Qed.

  (** ** Panics *)
  Definition panics roots : Prop := exists id ti, NEEDED roots id /\ preset id = None /\ types id = Some ti /\ GEN id ti = Panic.
  Lemma need_panic n : forall roots W id st, inv roots W st -> NEEDED roots id -> NEED n id st = NPanic -> panics roots.
  Proof.
    induction n as [|n IH]; intros roots W id st I Hn H; [discriminate|]. rewrite need_eq in H. cbv zeta in H.
    pose proof (inv_np roots W id st Hn I) as I1. set (st1 := NP (fst id) st) in *.
    assert (L1 : In (fst id) (ps_loaded st1)) by (apply np_loaded; auto). clearbody st1. clear I st.
    destruct (known st1 id) eqn:Ek; [discriminate|].
    assert (P : preset id = None). { destruct (preset id) as [s|] eqn:Ep; [|reflexivity]. rewrite (i_preset _ _ _ I1 _ _ L1 Ep) in Ek. discriminate. }
    destruct (types id) as [ti|] eqn:Et; [|discriminate].
    destruct (GEN id ti) as [s reqs errs|] eqn:Eg; [|exists id, ti; auto]. destruct (serve _ _ _ _) as [st2| |] eqn:Es; try discriminate.
    assert (E0 : ext st1 (put st1 id schema0)) by apply ext_put.
    assert (I2 : inv roots (id :: W) (put st1 id schema0)).
    { constructor; try apply I1.
      - intros id' K. rewrite put_known in K. destruct (ident_eqb id' id) eqn:E; [apply ident_eqb_eq in E as ->; exact L1|]. apply (i_loaded _ _ _ I1), K.
      - intros id' s' L P'. rewrite put_known. destruct (ident_eqb id' id) eqn:E; [apply ident_eqb_eq in E as ->; congruence|]. apply (i_preset _ _ _ I1); assumption.
      - intros id' s' K. rewrite put_known in K. destruct (ident_eqb id' id) eqn:E; [apply ident_eqb_eq in E as ->; left; left; reflexivity|].
        destruct (i_settled _ _ _ I1 _ _ K) as [Hw|Hs]; [left; right; exact Hw|right; eapply settled_ext; eassumption].
      - intros id' [<-|Hw]; rewrite put_known; [rewrite (proj2 (ident_eqb_eq id id) eq_refl); discriminate|]. destruct (ident_eqb id' id); [discriminate|]. apply (i_wip _ _ _ I1), Hw.
      - intros id' K. rewrite put_known in K. destruct (ident_eqb id' id) eqn:E; [apply ident_eqb_eq in E as ->; right; exact Hn|]. apply (i_needed _ _ _ I1), K. }
    assert (K : forall l a, (forall r, In r l -> In r reqs) -> inv roots (id :: W) a -> serve n id l a = NPanic -> panics roots).
    { induction l as [|r l IHl]; intros a Hi Ia Hs; cbn [serve] in Hs; [discriminate|].
      assert (Nr : NEEDED roots (target id r)) by (eapply needed_by; try eassumption; apply Hi; left; reflexivity).
      destruct (NEED n (target id r) a) as [c| |] eqn:En; try discriminate; [|eapply IH; [exact Ia|exact Nr|exact En]].
      destruct (need_inv n roots (id :: W) (target id r) a c Ia Nr En) as [Ic _]. apply (IHl c); auto. intros x Hx. apply Hi. right. exact Hx. }
    exact (K _ _ (fun r h => h) I2 Es).
  Qed.
  Lemma all_panic n roots ids : forall st, (forall id, In id ids -> In id roots) -> inv roots [] st -> ALL n ids st = NPanic -> panics roots.
  Proof.
    induction ids as [|id ids IH]; intros st Hi I H; cbn [need_all] in H; [discriminate|].
    assert (Nr : NEEDED roots id) by (apply needed_root, Hi; left; reflexivity).
    destruct (NEED n id st) as [c| |] eqn:En; try discriminate; [|eapply need_panic; [exact I|exact Nr|exact En]].
    destruct (need_inv n roots [] id st c I Nr En) as [Ic _]. apply (IH c); auto. intros x Hx. apply Hi. right. exact Hx.
  Qed.
  Lemma done_no_panic n ids st : ALL n ids start = NDone st -> ~ panics ids.
  Proof.
    intros H (id & ti & N & P & T & G). pose proof (all_needed _ _ _ H _ N) as [A _]. destruct (all_inv n ids ids _ _ (fun x h => h) (inv_start ids) H) as (I & _ & _).
    destruct A as [K|K].
    - destruct (known st id) as [s|] eqn:E; [|congruence]. destruct (i_settled _ _ _ I _ _ E) as [[]|S]. apply settled_schema in S. unfold schema_of in S. rewrite P, T, G in S. discriminate.
    - destruct (i_unknown _ _ _ I _ _ K) as [_ X]. destruct id. cbn in *. congruence.
  Qed.
  Lemma needed_incl ids ids' id : (forall x, In x ids -> In x ids') -> NEEDED ids id -> NEEDED ids' id.
  Proof. intros H N. induction N; [apply needed_root; auto|eapply needed_by; eassumption]. Qed.

  (** ** Statements *)
  Lemma all_errors n ids st : ALL n ids start = NDone st -> forall p x, In (p, x) (ps_errs st) <->
    exists id, NEEDED ids id /\ fst id = p /\ preset id = None /\
      match types id with
      | None => x = PUnknown (snd id)
      | Some ti => exists s reqs errs e, GEN id ti = Done s reqs errs /\ In e errs /\ x = PGen e
      end.
  Proof.
    intros H p x. destruct (all_inv n ids ids _ _ (fun x h => h) (inv_start ids) H) as (I & _ & _).
    split.
    - (* every error stems from a needed type *)
      assert (G : forall m id0 st0 st1 W, inv ids W st0 -> NEEDED ids id0 -> NEED m id0 st0 = NDone st1 ->
        forall p x, In (p, x) (ps_errs st1) -> In (p, x) (ps_errs st0) \/ exists id, NEEDED ids id /\ fst id = p /\ preset id = None /\
          match types id with None => x = PUnknown (snd id) | Some ti => exists s reqs errs e, GEN id ti = Done s reqs errs /\ In e errs /\ x = PGen e end).
      { clear H I st p x. induction m as [|m IH]; intros id st0 st1 W I Hn H p x Hx; [discriminate|]. rewrite need_eq in H. cbv zeta in H.
        pose proof (inv_np ids W id st0 Hn I) as I1. rewrite <- (np_errs (fst id) st0). set (sta := NP (fst id) st0) in *.
        assert (L1 : In (fst id) (ps_loaded sta)) by (apply np_loaded; auto). clearbody sta. clear I st0.
        destruct (known sta id) eqn:Ek; [injection H as <-; auto|].
        assert (P : preset id = None). { destruct (preset id) as [s|] eqn:Ep; [|reflexivity]. rewrite (i_preset _ _ _ I1 _ _ L1 Ep) in Ek. discriminate. }
        destruct (types id) as [ti|] eqn:Et.
        2: { injection H as <-. cbn in Hx. apply in_app_or in Hx as [Hx|[[= <- <-]|[]]]; [auto|]. right. exists id. rewrite Et. auto. }
        destruct (GEN id ti) as [s reqs errs|] eqn:Eg; [|discriminate]. destruct (serve _ _ _ _) as [st2| |] eqn:Es; try discriminate. injection H as <-.
        cbn in Hx. apply in_app_or in Hx as [Hx|Hx].
        2: { apply in_map_iff in Hx as (y & [= <- <-] & Hy). apply in_map_iff in Hy as (e & <- & He). right. exists id. rewrite Et. repeat split; auto. exists s, reqs, errs, e. auto. }
        assert (I2 : inv ids (id :: W) (put sta id schema0)).
        { assert (E0 : ext sta (put sta id schema0)) by apply ext_put. constructor; try apply I1.
          - intros id' K. rewrite put_known in K. destruct (ident_eqb id' id) eqn:E; [apply ident_eqb_eq in E as ->; exact L1|]. apply (i_loaded _ _ _ I1), K.
          - intros id' s' L P'. rewrite put_known. destruct (ident_eqb id' id) eqn:E; [apply ident_eqb_eq in E as ->; congruence|]. apply (i_preset _ _ _ I1); assumption.
          - intros id' s' K. rewrite put_known in K. destruct (ident_eqb id' id) eqn:E; [apply ident_eqb_eq in E as ->; left; left; reflexivity|].
            destruct (i_settled _ _ _ I1 _ _ K) as [Hw|Hs]; [left; right; exact Hw|right; eapply settled_ext; eassumption].
          - intros id' [<-|Hw]; rewrite put_known; [rewrite (proj2 (ident_eqb_eq id id) eq_refl); discriminate|]. destruct (ident_eqb id' id); [discriminate|]. apply (i_wip _ _ _ I1), Hw.
          - intros id' K. rewrite put_known in K. destruct (ident_eqb id' id) eqn:E; [apply ident_eqb_eq in E as ->; right; exact Hn|]. apply (i_needed _ _ _ I1), K. }
        assert (K : forall l a b, (forall r, In r l -> In r reqs) -> inv ids (id :: W) a -> serve m id l a = NDone b -> forall p x, In (p, x) (ps_errs b) -> In (p, x) (ps_errs a) \/ exists id, NEEDED ids id /\ fst id = p /\ preset id = None /\
          match types id with None => x = PUnknown (snd id) | Some ti => exists s reqs errs e, GEN id ti = Done s reqs errs /\ In e errs /\ x = PGen e end).
        { clear Hx p x. induction l as [|r l IHl]; intros a b Hi Ia Hs p x Hx; cbn [serve] in Hs; [injection Hs as <-; auto|].
          assert (Nr : NEEDED ids (target id r)) by (eapply needed_by; try eassumption; apply Hi; left; reflexivity).
          destruct (NEED m (target id r) a) as [c| |] eqn:En; try discriminate.
          destruct (need_inv m ids (id :: W) (target id r) a c Ia Nr En) as [Ic _].
          destruct (IHl c b) with (p := p) (x := x) as [Hc|Hc]; auto; [intros y Hy; apply Hi; right; exact Hy|]. apply (IH _ _ _ _ Ia Nr En _ _ Hc). }
        exact (K _ _ _ (fun r h => h) I2 Es _ _ Hx). }
      assert (K : forall l st0 st1, (forall y, In y l -> In y ids) -> inv ids [] st0 -> ALL n l st0 = NDone st1 -> forall p x, In (p, x) (ps_errs st1) -> In (p, x) (ps_errs st0) \/ exists id, NEEDED ids id /\ fst id = p /\ preset id = None /\
          match types id with None => x = PUnknown (snd id) | Some ti => exists s reqs errs e, GEN id ti = Done s reqs errs /\ In e errs /\ x = PGen e end).
      { clear H I st p x. induction l as [|y l IHl]; intros st0 st1 Hi I0 H p x Hx; cbn [need_all] in H; [injection H as <-; auto|].
        assert (Nr : NEEDED ids y) by (apply needed_root, Hi; left; reflexivity).
        destruct (NEED n y st0) as [c| |] eqn:En; try discriminate. destruct (need_inv n ids [] y st0 c I0 Nr En) as [Ic _].
        destruct (IHl c st1) with (p := p) (x := x) as [Hc|Hc]; auto; [intros z Hz; apply Hi; right; exact Hz|]. apply (G _ _ _ _ _ I0 Nr En _ _ Hc). }
      intros Hx. destruct (K _ _ _ (fun y h => h) (inv_start ids) H _ _ Hx) as [[]|E]. exact E.
    - intros (id & N & <- & P & M). destruct (all_needed _ _ _ H _ N) as [A _]. destruct (types id) as [ti|] eqn:T.
      + destruct M as (s & reqs & errs & e & G & He & ->). destruct A as [K|K].
        * destruct (known st id) as [s'|] eqn:E; [|congruence]. destruct (i_settled _ _ _ I _ _ E) as [[]|[Q|(_ & ti' & reqs' & errs' & T' & G' & _ & R)]]; [congruence|]. apply R. congruence.
        * destruct (i_unknown _ _ _ I _ _ K) as [_ X]. destruct id. cbn in *. congruence.
      + subst x. destruct A as [K|K]; [|exact K]. destruct (known st id) as [s'|] eqn:E; [|congruence]. destruct (i_settled _ _ _ I _ _ E) as [[]|S]. apply settled_schema in S. unfold schema_of in S. rewrite P, T in S. discriminate.
  Qed.
End Need.
