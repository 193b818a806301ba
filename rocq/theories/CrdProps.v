(** * Theorems about CRD assembly (C14, C15, C16, C40, C41). *)
From Coq Require Import List String Ascii Bool ZArith Permutation Sorted Lia.
From Verif Require Import GoLib GoLibFacts MapFacts SchemaModel CrdModel CrdSpec CrdProofs CrdProofs2 CrdProofs3 CrdProofs4.
Import ListNotations.
Open Scope nat_scope.
Open Scope string_scope.
Open Scope list_scope.

Section Props.
  Variable pluralize lower : string -> string.
  Variable gv_order : list (string * (string * string)) -> list (string * (string * string)).
  Variable m_order : cmarkers -> cmarkers.
  Variable v_sort : list version -> list version.
  Variable group_versions : list (string * (string * string)).
  Variable types : string * string -> option cmarkers.
  Variable schema_for : string * string -> schema.
  Hypothesis Hg : is_order gv_order.
  Hypothesis Hm : is_order m_order.
  Hypothesis Hv : sorts_by (fun a b => str_ltb (v_name a) (v_name b)) v_sort.
  Variables group kind : string.
  Notation defines := (defines group_versions types group kind).
  Notation carries := (carries group_versions types group kind).
  Notation skipped := (skipped group_versions types group kind).
  Notation kept := (kept group_versions types group kind).
  Notation need := (need_crd pluralize lower gv_order m_order v_sort group_versions types schema_for group kind).

  (** ** C14 *)
  (** The versions are those of the packages that define the kind, without skipped ones, by name. *)
  Theorem crd_versions c es : need = CDone (Some c) es ->
    c_versions c <> [] /\ (forall n, In n (map v_name (c_versions c)) <-> kept n) /\ StronglySorted (fun a b => str_ltb b a = false) (map v_name (c_versions c)).
  Proof.
    intros H. destruct (done_some _ _ _ _ _ _ _ _ Hg Hm _ _ _ _ H) as (NE & E & _). rewrite E. split; [|split].
    - intros K. apply NE. assert (P := proj1 (Hv (fold_left (fun vs s => vstep (s_ver s) (s_val s) vs) (steps m_order types kind (packages_of gv_order group_versions group)) (versions_of types schema_for kind (packages_of gv_order group_versions group))))).
      destruct (v_sort _) as [|v [|]]; [apply Permutation_nil in P; exact P|discriminate|discriminate].
    - intros n. apply sorted_names; assumption.
    - apply names_sorted. exact Hv.
  Qed.
  (** No CRD only if no version is left. *)
  Theorem crd_none es : need = CDone None es -> forall n, ~ kept n.
  Proof.
    intros H n K. destruct (done_none _ _ _ _ _ _ _ _ Hg Hm _ _ _ H) as [F _]. apply (final_names gv_order m_order group_versions types schema_for Hg Hm group kind) in K. rewrite F in K. destruct K.
  Qed.
  (** Each version holds what the markers of its own package say; the only version is stored. *)
  Theorem crd_version_contents c es : NoDup (map fst group_versions) -> distinct_versions group_versions types group kind -> all_registered group_versions types group kind -> need = CDone (Some c) es ->
    NoDup (map v_name (c_versions c)) /\
    forall v, In v (c_versions c) -> exists p ms, defines p (v_name v) ms /\ version_spec (v_name v) (schema_for (p, kind)) (flat_map snd ms) (forall n, kept n -> n = v_name v) v.
  Proof.
    intros Dg Di Re H. destruct (done_some _ _ _ _ _ _ _ _ Hg Hm _ _ _ _ H) as (_ & E & _). rewrite E. split.
    - rewrite default_names. eapply Permutation_NoDup; [apply Permutation_map, Permutation_sym, Hv|]. apply (final_nodup gv_order m_order group_versions types schema_for Hg group kind Dg Di).
    - intros v Hin. destruct (sorted_spec gv_order m_order v_sort group_versions types schema_for Hg Hm Hv group kind Dg v Di Hin) as (p & ms & D & S). exists p, ms. split; [exact D|].
      eapply spec_reorder; [apply (Re _ _ _ D)|apply Hm|exact S].
  Qed.
  (** A CRD without errors has a stored and a served version; a missing one is always reported. *)
  Theorem crd_checks o es : need = CDone o es ->
    (In ENoStorage (map snd es) <-> exists c, o = Some c /\ forall v, In v (c_versions c) -> v_storage v = false) /\
    (In ENotServed (map snd es) <-> exists c, o = Some c /\ forall v, In v (c_versions c) -> v_served v = false).
  Proof.
    intros H. assert (X : forall f (vs : list version), existsb f vs = false <-> forall v, In v vs -> f v = false).
    { intros f vs. rewrite <- not_true_iff_false, existsb_exists. split; [intros K v Hv'; destruct (f v) eqn:E; [exfalso; eauto|reflexivity]|intros K (v & Hv' & E); rewrite (K v Hv') in E; discriminate]. }
    split; (rewrite (check_errors _ _ _ _ _ _ _ _ Hg Hm _ _ _ _ _ H) by discriminate); split.
    - intros (c & E & [[_ K]|[K _]]); [|discriminate]. exists c. split; [exact E|apply X, K].
    - intros (c & E & K). exists c. split; [exact E|]. left. split; [reflexivity|apply X, K].
    - intros (c & E & [[K _]|[_ K]]); [discriminate|]. exists c. split; [exact E|apply X, K].
    - intros (c & E & K). exists c. split; [exact E|]. right. split; [reflexivity|apply X, K].
  Qed.
  Corollary crd_without_errors c : need = CDone (Some c) [] -> (exists v, In v (c_versions c) /\ v_storage v = true) /\ (exists v, In v (c_versions c) /\ v_served v = true).
  Proof.
    intros H. destruct (crd_checks _ _ H) as [S V]. assert (X : forall f : version -> bool, (forall v, In v (c_versions c) -> f v = false) \/ exists v, In v (c_versions c) /\ f v = true).
    { intros f. induction (c_versions c) as [|v vs IH]; [left; intros v []|]. destruct (f v) eqn:E; [right; exists v; split; [left; reflexivity|exact E]|]. destruct IH as [IH|(w & Hw & K)]; [left; intros w [<-|Hw]; auto|right; exists w; split; [right; exact Hw|exact K]]. }
    split; [destruct (X v_storage) as [K|K]|destruct (X v_served) as [K|K]]; try exact K; exfalso; [apply S|apply V]; eauto.
  Qed.
  (** Markers that cannot be applied are reported, on the package that carries them, and nothing else is. *)
  Theorem crd_marker_errors o es p m : need = CDone o es ->
    (In (p, EMarker m) es -> exists n, carries p n m /\ (bad_marker n m \/ (needs_version m /\ skipped n))) /\
    ((exists n, carries p n m /\ bad_marker n m) -> In (p, EMarker m) es).
  Proof.
    intros H. split.
    - apply (marker_errors _ _ _ _ _ _ _ _ Hg Hm _ _ _ _ _ _ H).
    - intros (n & C & B). apply (marker_errors_made _ _ _ _ _ _ _ _ Hg Hm _ _ _ _ _ _ _ H C B).
  Qed.
  (** It crashes exactly for a label without = in a marker whose annotations are all right. *)
  Theorem crd_panics : need = CPanic <-> exists p n a l, carries p n (CMetadata a l) /\ Forall well_formed a /\ ~ Forall well_formed l.
  Proof. apply panics; assumption. Qed.

  (** ** C15 *)
  Theorem crd_name c es : need = CDone (Some c) es -> c_name c = (n_plural (c_names c) ++ "." ++ group)%string /\ c_group c = group /\ n_kind (c_names c) = kind /\ n_list_kind (c_names c) = (kind ++ "List")%string.
  Proof.
    intros H. destruct (done_some _ _ _ _ _ _ _ _ Hg Hm _ _ _ _ H) as (_ & _ & E & N & G & _). split; [exact N|]. split; [exact G|]. rewrite E. destruct (nrun_kind (steps m_order types kind (packages_of gv_order group_versions group)) (c_names (start gv_order group_versions types schema_for group kind pluralize lower))) as [-> ->]. auto.
  Qed.
  (** Without resource markers the names are the default ones; with them, those of the marker, if all say the same. *)
  Theorem crd_names c es : need = CDone (Some c) es ->
    ((forall p n r, ~ carries p n (CResource r)) -> c_names c = mkNames (lower (pluralize kind)) (lower kind) kind (kind ++ "List") [] [] "Namespaced") /\
    (forall p n r, carries p n (CResource r) -> resources_agree group_versions types group kind ->
      n_plural (c_names c) = (if String.eqb (r_path r) "" then lower (pluralize kind) else r_path r) /\ n_singular (c_names c) = (if String.eqb (r_singular r) "" then lower kind else r_singular r) /\
      n_short (c_names c) = r_short r /\ n_categories (c_names c) = r_categories r /\ n_scope (c_names c) = (if String.eqb (r_scope r) "" then "Namespaced" else r_scope r)).
  Proof.
    intros H. destruct (done_some _ _ _ _ _ _ _ _ Hg Hm _ _ _ _ H) as (_ & _ & E & _). split.
    - intros N. rewrite E, nrun_none; [reflexivity|]. intros [[p n] m] r Hs K. cbn in K. subst m. apply (in_steps gv_order m_order group_versions types Hg Hm group kind) in Hs. apply (N p n r Hs).
    - intros p n r C A. rewrite E, (nrun_agree r).
      + cbn. auto.
      + intros [[p' n'] m] r' Hs K. cbn in K. subst m. apply (in_steps gv_order m_order group_versions types Hg Hm group kind) in Hs. apply (A _ _ _ _ _ _ Hs C).
      + exists (p, n, CResource r). split; [apply (in_steps gv_order m_order group_versions types Hg Hm group kind), C|reflexivity].
  Qed.
  (** Even if they do not, the names come from some marker. *)
  Theorem crd_names_from c es : need = CDone (Some c) es ->
    (n_plural (c_names c) = lower (pluralize kind) \/ exists p n r, carries p n (CResource r) /\ r_path r = n_plural (c_names c) /\ r_path r <> "") /\
    (forall p n r, carries p n (CResource r) -> exists p' n' r', carries p' n' (CResource r') /\ n_short (c_names c) = r_short r' /\ n_categories (c_names c) = r_categories r' /\ n_scope (c_names c) = (if String.eqb (r_scope r') "" then "Namespaced" else r_scope r')).
  Proof.
    intros H. destruct (done_some _ _ _ _ _ _ _ _ Hg Hm _ _ _ _ H) as (_ & _ & E & _). rewrite E. pose proof (in_steps gv_order m_order group_versions types Hg Hm group kind) as I. split.
    - destruct (nrun_plural (steps m_order types kind (packages_of gv_order group_versions group)) (c_names (start gv_order group_versions types schema_for group kind pluralize lower))) as [K|([[p n] m] & r & Hs & Em & K)]; [left; exact K|right]. cbn in Em. subst m. exists p, n, r. split; [apply I, Hs|exact K].
    - intros p n r C. destruct (nrun_last (steps m_order types kind (packages_of gv_order group_versions group)) (c_names (start gv_order group_versions types schema_for group kind pluralize lower))) as ([[p' n'] m] & r' & Hs & Em & K).
      + exists (p, n, CResource r), r. split; [apply I, C|reflexivity].
      + cbn in Em. subst m. exists p', n', r'. split; [apply I, Hs|exact K].
  Qed.
  (** Annotations and labels are those of the metadata markers. *)
  Theorem crd_metadata c es : need = CDone (Some c) es ->
    (forall k v, mget String.eqb (c_annotations c) k = Some v -> exists p n m, carries p n m /\ annotates m (k, v)) /\
    (forall k v, mget String.eqb (c_labels c) k = Some v -> exists p n m, carries p n m /\ labels m (k, v)) /\
    (metadata_agree group_versions types group kind annotates -> forall p n m k v, carries p n m -> annotates m (k, v) -> mget String.eqb (c_annotations c) k = Some v) /\
    (metadata_agree group_versions types group kind labels -> forall p n m k v, carries p n m -> labels m (k, v) -> mget String.eqb (c_labels c) k = Some v).
  Proof.
    intros H. destruct (done_some _ _ _ _ _ _ _ _ Hg Hm _ _ _ _ H) as (_ & _ & _ & _ & _ & EA & EL & _). destruct (done_calm _ _ _ _ _ _ _ _ Hg Hm _ _ _ _ H) as [_ Ca]. rewrite EA, EL.
    pose proof (in_ann gv_order m_order group_versions types Hg Hm group kind) as IA. assert (IL := fun k v => in_lab gv_order m_order group_versions types Hg Hm group kind k v Ca).
    split; [|split; [|split]].
    - intros k v K. apply puts_get in K as [K|K]; [apply IA, K|discriminate].
    - intros k v K. apply puts_get in K as [K|K]; [apply IL, K|discriminate].
    - intros A p n m k v C K. apply puts_exact; [|apply IA; eauto]. intros a b b' H1 H2. apply IA in H1 as (p1 & n1 & m1 & C1 & K1). apply IA in H2 as (p2 & n2 & m2 & C2 & K2). apply (A _ _ _ _ _ _ _ _ _ C1 K1 C2 K2).
    - intros A p n m k v C K. apply puts_exact; [|apply IL; eauto]. intros a b b' H1 H2. apply IL in H1 as (p1 & n1 & m1 & C1 & K1). apply IL in H2 as (p2 & n2 & m2 & C2 & K2). apply (A _ _ _ _ _ _ _ _ _ C1 K1 C2 K2).
  Qed.
End Props.
Print Assumptions crd_versions.
Print Assumptions crd_none.
Print Assumptions crd_version_contents.
Print Assumptions crd_checks.
Print Assumptions crd_without_errors.
Print Assumptions crd_marker_errors.
Print Assumptions crd_panics.
Print Assumptions crd_name.
Print Assumptions crd_names.
Print Assumptions crd_names_from.
Print Assumptions crd_metadata.

(** ** C40 *)
Section Orders.
  Variable pluralize lower : string -> string.
  Variables gv_order gv_order' : list (string * (string * string)) -> list (string * (string * string)).
  Variables m_order m_order' : cmarkers -> cmarkers.
  Variables v_sort v_sort' : list version -> list version.
  Variable group_versions : list (string * (string * string)).
  Variable types : string * string -> option cmarkers.
  Variable schema_for : string * string -> schema.
  Hypothesis Hg : is_order gv_order.
  Hypothesis Hm : is_order m_order.
  Hypothesis Hv : sorts_by (fun a b => str_ltb (v_name a) (v_name b)) v_sort.
  Hypothesis Hg' : is_order gv_order'.
  Hypothesis Hm' : is_order m_order'.
  Hypothesis Hv' : sorts_by (fun a b => str_ltb (v_name a) (v_name b)) v_sort'.
  Variables group kind : string.
  Hypothesis Dg : NoDup (map fst group_versions).
  Hypothesis Di : distinct_versions group_versions types group kind.
  Hypothesis Re : all_registered group_versions types group kind.
  Hypothesis Sk : no_skip_clash group_versions types group kind.
  Hypothesis Rs : resources_agree group_versions types group kind.
  Hypothesis Ma : metadata_agree group_versions types group kind annotates.
  Hypothesis Ml : metadata_agree group_versions types group kind labels.
  Notation need := (need_crd pluralize lower gv_order m_order v_sort group_versions types schema_for group kind).
  Notation need' := (need_crd pluralize lower gv_order' m_order' v_sort' group_versions types schema_for group kind).

  Lemma same_versions c es c' es' : need = CDone (Some c) es -> need' = CDone (Some c') es' -> c_versions c = c_versions c'.
  Proof.
    intros H H'. destruct (crd_versions _ _ _ _ _ _ _ _ Hg Hm Hv _ _ _ _ H) as (_ & I & S). destruct (crd_versions _ _ _ _ _ _ _ _ Hg' Hm' Hv' _ _ _ _ H') as (_ & I' & S').
    destruct (crd_version_contents _ _ _ _ _ _ _ _ Hg Hm Hv _ _ _ _ Dg Di Re H) as (D & C). destruct (crd_version_contents _ _ _ _ _ _ _ _ Hg' Hm' Hv' _ _ _ _ Dg Di Re H') as (D' & C').
    assert (U : forall v v', In v (c_versions c) -> In v' (c_versions c') -> v_name v = v_name v' -> v = v').
    { intros v v' K K' E. destruct (C v K) as (p & ms & Dp & Sp). destruct (C' v' K') as (p' & ms' & Dp' & Sp'). rewrite <- E in Dp', Sp'. assert (p' = p) as -> by (eapply Di; eassumption). assert (ms' = ms) as -> by (destruct Dp as [_ T], Dp' as [_ T']; congruence). apply (spec_unique _ _ _ _ _ _ Sp Sp'). }
    assert (En : map v_name (c_versions c) = map v_name (c_versions c')).
    { apply (strongly_sorted_unique _ (fun a b => str_ltb b a = false)); auto.
      - intros x y K1 K2. apply str_ltb_total; assumption.
      - apply NoDup_Permutation; auto. intros n. rewrite I, I'. reflexivity. }
    clear -U En. revert U En. generalize (c_versions c'). intros l'. revert l'. induction (c_versions c) as [|v l IH]; intros [|v' l'] U En; try discriminate; [reflexivity|]. cbn in En. injection En as E En. f_equal.
    - apply U; [left|left|]; auto.
    - apply IH; [|exact En]. intros x y Hx Hy. apply U; right; assumption.
  Qed.
  (** The CRD and its errors are the same whatever the orders of the maps. *)
  Theorem crd_any_order :
    match need, need' with
    | CPanic, CPanic => True
    | CDone o es, CDone o' es' =>
        (match o, o' with Some c, Some c' => same_crd c c' | None, None => True | _, _ => False end) /\ (forall p m, In (p, EMarker m) es <-> In (p, EMarker m) es') /\ (forall e, In e (map snd es) <-> In e (map snd es'))
    | _, _ => False
    end.
  Proof.
    pose proof (crd_panics pluralize lower gv_order m_order v_sort group_versions types schema_for Hg Hm group kind) as P.
    pose proof (crd_panics pluralize lower gv_order' m_order' v_sort' group_versions types schema_for Hg' Hm' group kind) as P'.
    destruct need as [o es|] eqn:H, need' as [o' es'|] eqn:H'; [| |destruct P as [P _], P' as [_ P']; discriminate (P' (P eq_refl))|exact I].
    2:{ destruct P as [_ P], P' as [P' _]. discriminate (P (P' eq_refl)). }
    assert (Em : forall p m, In (p, EMarker m) es <-> In (p, EMarker m) es').
    { intros p m. destruct (crd_marker_errors _ _ _ _ _ _ _ _ Hg Hm _ _ _ _ p m H) as [K1 K2]. destruct (crd_marker_errors _ _ _ _ _ _ _ _ Hg' Hm' _ _ _ _ p m H') as [K1' K2']. split; intros K.
      - destruct (K1 K) as (n & C & [B|[B B']]); [apply K2'; eauto|]. destruct (Sk _ _ _ C B B').
      - destruct (K1' K) as (n & C & [B|[B B']]); [apply K2; eauto|]. destruct (Sk _ _ _ C B B'). }
    assert (Eo : match o, o' with Some c, Some c' => same_crd c c' | None, None => True | _, _ => False end).
    { destruct o as [c|], o' as [c'|]; [| | |exact I].
      - assert (EN : c_names c = c_names c').
        { destruct (crd_names _ _ _ _ _ _ _ _ Hg Hm _ _ _ _ H) as [N1 N2]. destruct (crd_names _ _ _ _ _ _ _ _ Hg' Hm' _ _ _ _ H') as [N1' N2'].
          destruct (done_some _ _ _ _ _ _ _ _ Hg Hm _ _ _ _ H) as (_ & _ & En & _). destruct (done_some _ _ _ _ _ _ _ _ Hg' Hm' _ _ _ _ H') as (_ & _ & En' & _).
          assert (X : (forall s r, In s (steps m_order types kind (packages_of gv_order group_versions group)) -> s_val s <> CResource r) \/ exists p n r, carries group_versions types group kind p n (CResource r)).
          { pose proof (in_steps gv_order m_order group_versions types Hg Hm group kind) as Is. assert (Is' : forall x, In x (steps m_order types kind (packages_of gv_order group_versions group)) -> carries group_versions types group kind (fst (fst x)) (s_ver x) (s_val x)).
            { intros [[p n] m] K. apply Is, K. }
            clear -Is'. induction (steps m_order types kind (packages_of gv_order group_versions group)) as [|[[p n] m] l IH]; [left; intros s r []|]. 
            assert (IH' := IH (fun x Hx => Is' x (or_intror Hx))). destruct m as [| | | | |r0| | | | |]; try (destruct IH' as [IH'|IH']; [left; intros s1 r1 [<-|Hs]; [cbn; discriminate|apply IH', Hs]|right; exact IH']).
            right. exists p, n, r0. apply (Is' (p, n, CResource r0)). left. reflexivity. }
          destruct X as [X|(p & n & r & C)].
          - assert (N : forall p n r, ~ carries group_versions types group kind p n (CResource r)) by (intros p n r C; apply (in_steps gv_order m_order group_versions types Hg Hm group kind) in C; apply (X _ r C); reflexivity). rewrite (N1 N), (N1' N). reflexivity.
          - destruct (N2 _ _ _ C Rs) as (A1 & A2 & A3 & A4 & A5). destruct (N2' _ _ _ C Rs) as (B1 & B2 & B3 & B4 & B5). destruct (crd_name _ _ _ _ _ _ _ _ Hg Hm _ _ _ _ H) as (_ & _ & A6 & A7). destruct (crd_name _ _ _ _ _ _ _ _ Hg' Hm' _ _ _ _ H') as (_ & _ & B6 & B7).
            destruct (c_names c), (c_names c'). cbn in *. congruence. }
        destruct (crd_name _ _ _ _ _ _ _ _ Hg Hm _ _ _ _ H) as (A1 & A2 & _). destruct (crd_name _ _ _ _ _ _ _ _ Hg' Hm' _ _ _ _ H') as (B1 & B2 & _).
        destruct (crd_metadata _ _ _ _ _ _ _ _ Hg Hm _ _ _ _ H) as (M1 & M2 & M3 & M4). destruct (crd_metadata _ _ _ _ _ _ _ _ Hg' Hm' _ _ _ _ H') as (M1' & M2' & M3' & M4').
        assert (G : forall (m m' : list (string * string)) k, (forall v, mget String.eqb m k = Some v -> mget String.eqb m' k = Some v) -> (forall v, mget String.eqb m' k = Some v -> mget String.eqb m k = Some v) -> mget String.eqb m k = mget String.eqb m' k).
        { intros m m' k K1 K2. destruct (mget String.eqb m k) as [v|]; [symmetry; apply K1; reflexivity|]. destruct (mget String.eqb m' k) as [v|]; [|reflexivity]. discriminate (K2 v eq_refl). }
        split; [congruence|]. split; [congruence|]. split; [exact EN|]. split; [apply (same_versions _ _ _ _ H H')|]. split; intros k; apply G; intros v K.
        + destruct (M1 _ _ K) as (p & n & m & C & An). apply (M3' Ma _ _ _ _ _ C An).
        + destruct (M1' _ _ K) as (p & n & m & C & An). apply (M3 Ma _ _ _ _ _ C An).
        + destruct (M2 _ _ K) as (p & n & m & C & An). apply (M4' Ml _ _ _ _ _ C An).
        + destruct (M2' _ _ K) as (p & n & m & C & An). apply (M4 Ml _ _ _ _ _ C An).
      - destruct (crd_versions _ _ _ _ _ _ _ _ Hg Hm Hv _ _ _ _ H) as (NE & K & _). pose proof (crd_none _ _ _ _ _ _ _ _ Hg' Hm' _ _ _ H') as N. destruct (c_versions c) as [|v vs]; [congruence|]. apply (N (v_name v)), K. left. reflexivity.
      - destruct (crd_versions _ _ _ _ _ _ _ _ Hg' Hm' Hv' _ _ _ _ H') as (NE & K & _). pose proof (crd_none _ _ _ _ _ _ _ _ Hg Hm _ _ _ H) as N. destruct (c_versions c') as [|v vs]; [congruence|]. apply (N (v_name v)), K. left. reflexivity. }
    split; [exact Eo|]. split; [exact Em|]. intros e. destruct (crd_checks _ _ _ _ _ _ _ _ Hg Hm _ _ _ _ H) as [S1 V1]. destruct (crd_checks _ _ _ _ _ _ _ _ Hg' Hm' _ _ _ _ H') as [S2 V2].
    assert (Ec : forall f : version -> bool, (exists c, o = Some c /\ forall v, In v (c_versions c) -> f v = false) <-> exists c, o' = Some c /\ forall v, In v (c_versions c) -> f v = false).
    { intros f. destruct o as [c|], o' as [c'|]; try destruct Eo as (_ & _ & _ & Ev & _); [|destruct Eo|destruct Eo|reflexivity]. split; intros (x & Ex & K); injection Ex as <-; [exists c'; rewrite <- Ev|exists c; rewrite Ev]; auto. }
    destruct e as [m| |].
    - split; intros K; apply in_map_iff in K as ([p e'] & Ee & K); cbn in Ee; subst e'; apply Em in K; apply (in_map snd) in K; exact K.
    - rewrite S1, S2. apply Ec.
    - rewrite V1, V2. apply Ec.
  Qed.
End Orders.
Print Assumptions crd_any_order.

(** ** C41: the kinds *)
Section Kinds.
  Variable group_versions : list (string * (string * string)).
  Variables t_order t_order' : list ((string * string) * list string) -> list ((string * string) * list string).
  Variable embedded : list ((string * string) * list string).
  Variables k_order k_sort k_order' k_sort' : list (string * string) -> list (string * string).
  Hypothesis Ht : is_order t_order.
  Hypothesis Hk : is_order k_order.
  Hypothesis Hs : sorts_by (fun a b => str_ltb (gk_string a) (gk_string b)) k_sort.
  Hypothesis Ht' : is_order t_order'.
  Hypothesis Hk' : is_order k_order'.
  Hypothesis Hs' : sorts_by (fun a b => str_ltb (gk_string a) (gk_string b)) k_sort'.
  (** The kinds are the types that embed TypeMeta and ObjectMeta, each once; their order is fixed if no type name holds a dot. *)
  Theorem kinds_found : let kinds := find_kinds group_versions t_order embedded k_order k_sort in
    NoDup kinds /\ (forall g k, In (g, k) kinds <-> kube_kind group_versions embedded g k) /\
    ((forall p k es, In ((p, k), es) embedded -> has_char "."%char k = false) -> kinds = find_kinds group_versions t_order' embedded k_order' k_sort').
  Proof.
    cbv zeta. pose proof (kinds_nodup group_versions t_order embedded k_order k_sort Hk Hs) as D. pose proof (kinds_nodup group_versions t_order' embedded k_order' k_sort' Hk' Hs') as D'.
    pose proof (kinds_in group_versions t_order embedded k_order k_sort Ht Hk Hs) as I. pose proof (kinds_in group_versions t_order' embedded k_order' k_sort' Ht' Hk' Hs') as I'.
    split; [exact D|]. split; [exact I|]. intros N. assert (N' : forall gk, In gk (find_kinds group_versions t_order embedded k_order k_sort) -> has_char "."%char (snd gk) = false).
    { intros [g k] K. apply I in K as (p & es & K & _). apply (N p k es K). }
    apply (strongly_sorted_unique_on _ (fun a b => str_ltb (gk_string b) (gk_string a) = false)).
    - intros x y Hx Hy K1 K2. apply gk_string_inj; auto. apply str_ltb_total; assumption.
    - apply kinds_sorted; assumption.
    - apply kinds_sorted; assumption.
    - apply NoDup_Permutation; auto. intros [g k]. rewrite I, I'. reflexivity.
  Qed.
End Kinds.
Print Assumptions kinds_found.

(** ** C16: the files *)
Section Gen.
  Variable pluralize lower : string -> string.
  Variable gv_order : list (string * (string * string)) -> list (string * (string * string)).
  Variable m_order : cmarkers -> cmarkers.
  Variable v_sort : list version -> list version.
  Variable group_versions : list (string * (string * string)).
  Variable types : string * string -> option cmarkers.
  Variable schema_for : string * string -> schema.
  Variable tool_version : string.
  Variable t_order : list ((string * string) * list string) -> list ((string * string) * list string).
  Variable embedded : list ((string * string) * list string).
  Variables k_order k_sort : list (string * string) -> list (string * string).
  Hypothesis Hg : is_order gv_order.
  Hypothesis Hm : is_order m_order.
  Hypothesis Ht : is_order t_order.
  Hypothesis Hk : is_order k_order.
  Hypothesis Hs : sorts_by (fun a b => str_ltb (gk_string a) (gk_string b)) k_sort.
  Notation need := (need_crd pluralize lower gv_order m_order v_sort group_versions types schema_for).
  Notation run := (generate pluralize lower gv_order m_order v_sort group_versions types schema_for tool_version t_order embedded k_order k_sort).
  Notation kube_kind := (kube_kind group_versions embedded).
  (** The versions of CRDs that are asked for *)
  Definition asked (vers : list string) : list string := match vers with [] => ["v1"] | _ => vers end.

  (** Every CRD is written, once per version asked for, in its file; each file written is one of those. *)
  Theorem files_written vers w es : run vers = GDone w false es ->
    (forall g k c errs i v, kube_kind g k -> need g k = CDone (Some c) errs -> nth_error (asked vers) i = Some v ->
      exists f x, In (f, x) w /\ named g (n_plural (c_names c)) i v f /\ published tool_version c x) /\
    (forall f x, In (f, x) w -> exists g k o errs i v, kube_kind g k /\ need g k = CDone o errs /\ nth_error (asked vers) i = Some v /\
      match o with Some c => named g (n_plural (c_names c)) i v f /\ published tool_version c x | None => named "" "" i v f /\ c_versions x = [] end) /\
    (forall e, In e es <-> exists g k o errs, kube_kind g k /\ need g k = CDone o errs /\ In e errs) /\
    (exists n, List.length w = n * List.length (asked vers)).
  Proof.
    intros H. pose proof (kinds_in group_versions t_order embedded k_order k_sort Ht Hk Hs) as I. unfold generate in H. fold (asked vers) in H.
    assert (Fn : forall g p i v c, c_group c = g -> n_plural (c_names c) = p -> named g p i v (file_name c i v)).
    { intros g p i v c <- <-. unfold named, file_name. destruct i; [left|right]; split; auto; discriminate. }
    destruct (find_kinds group_versions t_order embedded k_order k_sort) as [|gk kinds] eqn:Ek.
    - injection H as <- <-. split; [intros g k c errs i v K; apply I in K as []|]. split; [intros f x []|]. split; [|exists 0; reflexivity]. intros e. split; [intros []|]. intros (g & k & o & errs & K & _). apply I in K as [].
    - assert (NE : gk :: kinds <> []) by discriminate. destruct (kinds_done _ _ _ _ _ _ _ _ _ _ _ _ _ _ NE H) as [[K _]|(_ & A & L & NP & E & W)]; [discriminate|]. split; [|split; [|split]].
      + intros g k c errs i v K N Ni. apply I in K. assert (Eg : got pluralize lower gv_order m_order v_sort group_versions types schema_for (g, k) = c) by (unfold got; cbn [fst snd]; rewrite N; reflexivity).
        exists (file_name c i v), (remove_description (fix_metadata (add_attribution tool_version c))). split; [apply W; exists (g, k), i, v; rewrite Eg; auto|]. split; [|apply published_ok]. apply Fn; [|reflexivity]. apply (crd_name _ _ _ _ _ _ _ _ Hg Hm _ _ _ _ N).
      + intros f x K. apply W in K as ([g k] & i & v & K & Ni & -> & ->). specialize (NP _ K). cbn [fst snd] in NP. destruct (need g k) as [o errs|] eqn:N; [|congruence]. exists g, k, o, errs, i, v. split; [apply I, K|]. split; [exact N|]. split; [exact Ni|].
        unfold got. cbn [fst snd]. rewrite N. destruct o as [c|].
        * split; [|apply published_ok]. apply Fn; [|reflexivity]. apply (crd_name _ _ _ _ _ _ _ _ Hg Hm _ _ _ _ N).
        * split; [apply Fn; reflexivity|reflexivity].
      + intros e. rewrite E. split.
        * intros ([g k] & o & errs & K & N & Ke). exists g, k, o, errs. split; [apply I, K|auto].
        * intros (g & k & o & errs & K & N & Ke). exists (g, k), o, errs. split; [apply I, K|auto].
      + exists (List.length (gk :: kinds)). exact L.
  Qed.
  (** It fails only for a version other than v1, before anything is written. *)
  Theorem files_failed vers w es : run vers = GDone w true es -> w = [] /\ exists v, In v vers /\ v <> "v1".
  Proof.
    intros H. unfold generate in H. fold (asked vers) in H. destruct (find_kinds group_versions t_order embedded k_order k_sort) as [|gk kinds] eqn:Ek; [discriminate|].
    assert (NE : gk :: kinds <> []) by discriminate. destruct (kinds_done _ _ _ _ _ _ _ _ _ _ _ _ _ _ NE H) as [(_ & -> & v & Hv & N)|[K _]]; [|discriminate]. split; [reflexivity|]. exists v. split; [|exact N]. destruct vers; [destruct Hv as [<-|[]]; contradiction|exact Hv].
  Qed.
End Gen.
Print Assumptions files_written.
Print Assumptions files_failed.
(** Files of different CRDs are different, if no group holds an underscore (no group of a cluster does). *)
Theorem files_distinct g p v f g' p' v' : has_char "_"%char g = false -> has_char "_"%char g' = false -> named g p 0 v f -> named g' p' 0 v' f -> g = g' /\ p = p'.
Proof. intros H H' [[_ ->]|[K _]] [[_ E]|[K' _]]; try contradiction. apply (file_names_first _ _ _ _ H H' E). Qed.
Print Assumptions files_distinct.
(** With several versions, if no plural holds a dot either. *)
Theorem files_distinct_versions g p i v f g' p' i' v' : has_char "_"%char g = false -> has_char "_"%char g' = false -> has_char "."%char p = false -> has_char "."%char p' = false ->
  named g p i v f -> named g' p' i' v' f -> g = g' /\ p = p' /\ (i = 0 <-> i' = 0) /\ (i <> 0 -> v = v').
Proof. apply file_names. Qed.
Print Assumptions files_distinct_versions.
Theorem files_distinct_refuted : exists g p g' p' f, named g p 0 "v1" f /\ named g' p' 0 "v1" f /\ (g, p) <> (g', p').
Proof. exists "a_b", "cs", "a", "b_cs", "a_b_cs.yaml". split; [left; auto|]. split; [left; auto|]. discriminate. Qed.
Print Assumptions files_distinct_refuted.

(** ** Cases *)
Definition by_name : list version -> list version := sort_by (fun a b => str_ltb (v_name a) (v_name b)).
Lemma by_name_sorts : sorts_by (fun a b => str_ltb (v_name a) (v_name b)) by_name.
Proof.
  intros l. split; [apply sort_by_perm|]. apply (sort_by_sorted version (fun a b => str_ltb (v_name a) (v_name b))).
  - intros a b c. apply str_ltb_trans.
  - intros a. apply str_ltb_irrefl.
  - intros a b c. apply str_ltb_negtrans.
Qed.
Lemma case_id {A} : is_order (fun l : list A => l). Proof. intros l. apply Permutation_refl. Qed.
Lemma case_rev {A} : is_order (@rev A). Proof. intros l. apply Permutation_sym, Permutation_rev. Qed.
Definition one_case (o : list (string * (string * string)) -> list (string * (string * string))) (mo : cmarkers -> cmarkers) (l : list (string * string * cmarkers)) : cres :=
  need_crd (fun s => (s ++ "s")%string) (fun s => s) o mo by_name (map (fun x => (fst (fst x), ("g", snd (fst x)))) l)
    (fun id => if String.eqb (snd id) "Foo" then mget String.eqb (map (fun x => (fst (fst x), snd x)) l) (fst id) else None) (fun _ => schema0) "g" "Foo".
(** Two packages, with all sorts of markers *)
Definition full : list (string * string * cmarkers) :=
  [("p2", "v2", [("status", [CStatus]); ("column", [CColumn (mkColumn "Age" "date" ".a" "" "" 0); CColumn (mkColumn "B" "string" ".b" "" "" 1)]); ("metadata", [CMetadata ["k=v"; "a=b=c"] ["l=1"]])]);
   ("p1", "v1", [("storage", [CStorage]); ("deprecated", [CDeprecated (Some "old")]); ("resource", [CResource (mkResource "fooes" ["fo"] [] "" "Cluster")]); ("scale", [CScale (mkScale ".s" ".t" None)])]);
   ("p0", "v0", [("skip", [CSkip]); ("unserved", [CUnserved])])].
Example case_full : exists c, one_case (fun l => l) (fun l => l) full = CDone (Some c) [] /\ one_case (@rev _) (@rev _) full = CDone (Some c) [] /\
  map v_name (c_versions c) = ["v1"; "v2"] /\ map v_storage (c_versions c) = [true; false] /\ c_name c = "fooes.g" /\ c_annotations c = [("k", "v"); ("a", "b=c")] /\ c_labels c = [("l", "1")].
Proof. eexists. split; [vm_compute; reflexivity|]. vm_compute. auto 10. Qed.
Ltac cases H := repeat match type of H with _ \/ _ => destruct H as [H|H] | False => destruct H end; try discriminate H.
Example case_full_hypotheses :
  let gvs := map (fun x => (fst (fst x), ("g", snd (fst x)))) full in
  let types := fun id : string * string => if String.eqb (snd id) "Foo" then mget String.eqb (map (fun x => (fst (fst x), snd x)) full) (fst id) else None in
  NoDup (map fst gvs) /\ distinct_versions gvs types "g" "Foo" /\ all_registered gvs types "g" "Foo" /\ no_skip_clash gvs types "g" "Foo" /\ resources_agree gvs types "g" "Foo" /\
  metadata_agree gvs types "g" "Foo" annotates /\ metadata_agree gvs types "g" "Foo" labels.
Proof.
  cbv zeta.
  assert (D : forall p n ms, defines (map (fun x => (fst (fst x), ("g", snd (fst x)))) full) (fun id => if String.eqb (snd id) "Foo" then mget String.eqb (map (fun x => (fst (fst x), snd x)) full) (fst id) else None) "g" "Foo" p n ms -> In (p, n, ms) full).
  { intros p n ms [[K|[K|[K|[]]]] T]; injection K as <- <-; vm_compute in T; injection T as <-; cbn; auto. }
  assert (C : forall p n m, carries (map (fun x => (fst (fst x), ("g", snd (fst x)))) full) (fun id => if String.eqb (snd id) "Foo" then mget String.eqb (map (fun x => (fst (fst x), snd x)) full) (fst id) else None) "g" "Foo" p n m ->
     In (n, m) [("v2", CStatus); ("v2", CColumn (mkColumn "Age" "date" ".a" "" "" 0)); ("v2", CColumn (mkColumn "B" "string" ".b" "" "" 1)); ("v2", CMetadata ["k=v"; "a=b=c"] ["l=1"]); ("v1", CStorage); ("v1", CDeprecated (Some "old"));
       ("v1", CResource (mkResource "fooes" ["fo"] [] "" "Cluster")); ("v1", CScale (mkScale ".s" ".t" None)); ("v0", CSkip); ("v0", CUnserved)]).
  { intros p n m (ms & name & vs & Dm & K & Km). apply D in Dm. cbn in Dm. destruct Dm as [E|[E|[E|[]]]]; injection E as <- <- <-; cbn in K; repeat (destruct K as [K|K]; [injection K as <- <-; cbn in Km; repeat (destruct Km as [<-|Km]; [cbn; auto 12|]); destruct Km|]); destruct K. }
  assert (M : forall m, (exists a l, m = CMetadata a l) -> forall p n, carries (map (fun x => (fst (fst x), ("g", snd (fst x)))) full) (fun id => if String.eqb (snd id) "Foo" then mget String.eqb (map (fun x => (fst (fst x), snd x)) full) (fst id) else None) "g" "Foo" p n m -> m = CMetadata ["k=v"; "a=b=c"] ["l=1"]).
  { intros m (a & l & ->) p n K. apply C in K. cbn in K. cases K. congruence. }
  split; [repeat constructor; cbn; intuition discriminate|]. split; [|split; [|split; [|split; [|split]]]].
  - intros p ms p' ms' n K K'. apply D in K, K'. cbn in K, K'. destruct K as [K|[K|[K|[]]]]; injection K as <- <- <-; destruct K' as [K'|[K'|[K'|[]]]]; try discriminate K'; congruence.
  - intros p n ms K. apply D in K. cbn in K. destruct K as [K|[K|[K|[]]]]; injection K as <- <- <-; (split; [repeat constructor; cbn; intuition discriminate|]);
      intros a va m a' va' m' H1 H2 H3 H4; cbn in H1, H3; repeat (destruct H1 as [H1|H1]; [injection H1 as <- <-|]); try destruct H1; repeat (destruct H3 as [H3|H3]; [injection H3 as <- <-|]); try destruct H3; try reflexivity;
      cbn in H2, H4; repeat (destruct H2 as [<-|H2]); try destruct H2; repeat (destruct H4 as [<-|H4]); try destruct H4; cbn; congruence.
  - intros p n m K N [_ (q & S)]. apply C in K, S. cbn in S. cases S. injection S as <-. cbn in K. cases K; injection K as <-; destruct N.
  - intros p n r p' n' r' K K'. apply C in K, K'. cbn in K, K'. cases K. cases K'. congruence.
  - intros p n m p' n' m' k v v' K A K' A'. assert (E : m = CMetadata ["k=v"; "a=b=c"] ["l=1"]) by (apply (M m) with p n; [destruct A as (a & l & _ & _ & _ & -> & _); eauto|exact K]). assert (E' : m' = CMetadata ["k=v"; "a=b=c"] ["l=1"]) by (apply (M m') with p' n'; [destruct A' as (a & l & _ & _ & _ & -> & _); eauto|exact K']).
    apply ann_pairs_in in A, A'. subst m m'. cbn in A, A'. destruct A as [A|[A|[]]], A' as [A'|[A'|[]]]; congruence.
  - intros p n m p' n' m' k v v' K A K' A'. assert (E : m = CMetadata ["k=v"; "a=b=c"] ["l=1"]) by (apply (M m) with p n; [destruct A as (a & l & s & -> & _); eauto|exact K]). assert (E' : m' = CMetadata ["k=v"; "a=b=c"] ["l=1"]) by (apply (M m') with p' n'; [destruct A' as (a & l & s & -> & _); eauto|exact K']).
    subst m m'. apply lab_pairs_in in A, A'; try reflexivity. cbn in A, A'. destruct A as [A|[]], A' as [A'|[]]; congruence.
Qed.

(** ** What does not hold *)
(** Several storage versions go unnoticed. *)
Theorem crd_one_storage_refuted : exists l c, one_case (fun l => l) (fun l => l) l = CDone (Some c) [] /\ map v_storage (c_versions c) = [true; true].
Proof. exists [("p1", "v1", [("storage", [CStorage])]); ("p2", "v2", [("storage", [CStorage])])]. eexists. split; vm_compute; reflexivity. Qed.
Print Assumptions crd_one_storage_refuted.
(** So do two packages of the same version: the CRD has it twice. *)
Theorem crd_distinct_versions_refuted : exists l c, one_case (fun l => l) (fun l => l) l = CDone (Some c) [] /\ map v_name (c_versions c) = ["v1"; "v1"].
Proof. exists [("p1", "v1", [("storage", [CStorage])]); ("p2", "v1", [])]. eexists. split; vm_compute; reflexivity. Qed.
Print Assumptions crd_distinct_versions_refuted.
(** Versions are in the order of their names as strings: v10 before v2. *)
Theorem crd_version_order_refuted : exists l c, one_case (fun l => l) (fun l => l) l = CDone (Some c) [] /\ map v_name (c_versions c) = ["v10"; "v2"].
Proof. exists [("p1", "v2", [("storage", [CStorage])]); ("p2", "v10", [])]. eexists. split; vm_compute; reflexivity. Qed.
Print Assumptions crd_version_order_refuted.
(** With skipversion and a status subresource on one type there is an error in some runs and none in others. *)
Theorem crd_skip_status_refuted : exists l, one_case (fun l => l) (fun l => l) l = CDone None [("p1", EMarker CStatus)] /\ one_case (fun l => l) (@rev _) l = CDone None [].
Proof. exists [("p1", "v1", [("skip", [CSkip]); ("status", [CStatus])])]. split; vm_compute; reflexivity. Qed.
Print Assumptions crd_skip_status_refuted.
(** Resource markers that differ between versions: the CRD is another one from run to run, without an error. *)
Theorem crd_resources_refuted : exists l c c', one_case (fun l => l) (fun l => l) l = CDone (Some c) [] /\ one_case (@rev _) (fun l => l) l = CDone (Some c') [] /\ c_name c = "as.g" /\ c_name c' = "bs.g".
Proof. exists [("p1", "v1", [("storage", [CStorage]); ("resource", [CResource (mkResource "bs" [] [] "" "")])]); ("p2", "v2", [("resource", [CResource (mkResource "as" [] [] "" "")])])]. eexists. eexists. split; [vm_compute; reflexivity|]. split; [vm_compute; reflexivity|]. split; reflexivity. Qed.
Print Assumptions crd_resources_refuted.
(** A label without = is a crash. *)
Theorem crd_labels_refuted : exists l, one_case (fun l => l) (fun l => l) l = CPanic.
Proof. exists [("p1", "v1", [("metadata", [CMetadata [] ["app"]])])]. vm_compute. reflexivity. Qed.
Print Assumptions crd_labels_refuted.
(** A kind all of whose versions are skipped, or of a package without a group, is written nevertheless: an empty CRD in _.yaml. *)
Definition gen_case (gvs : list (string * (string * string))) (ms : cmarkers) : gres :=
  generate (fun s => (s ++ "s")%string) (fun s => s) (fun l => l) (fun l => l) by_name gvs (fun id => if String.eqb (snd id) "Foo" then Some ms else None) (fun _ => schema0) "dev" (fun l => l) [(("p1", "Foo"), ["TypeMeta"; "ObjectMeta"])] (fun l => l) (fun l => l) [].
Theorem files_empty_refuted :
  (exists x, gen_case [("p1", ("g", "v1"))] [("skip", [CSkip])] = GDone [("_.yaml", x)] false [] /\ c_name x = "" /\ c_versions x = []) /\
  (exists x, gen_case [] [] = GDone [("_.yaml", x)] false [] /\ c_name x = "" /\ c_versions x = []).
Proof. split; eexists; (split; [vm_compute; reflexivity|split; reflexivity]). Qed.
Print Assumptions files_empty_refuted.
(** Errors do not keep a CRD from being written. *)
Theorem files_errors_refuted : exists gvs ms f x e, gen_case gvs ms = GDone [(f, x)] false [e].
Proof. exists [("p1", ("g", "v1"))], [("unserved", [CUnserved])]. eexists. eexists. eexists. vm_compute. reflexivity. Qed.
Print Assumptions files_errors_refuted.
