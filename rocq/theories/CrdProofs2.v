(** * Proofs about NeedCRDFor. *)
From Coq Require Import List String Ascii Bool ZArith Permutation Sorted Lia.
From Verif Require Import GoLib GoLibFacts MapFacts SchemaModel CrdModel CrdSpec CrdProofs.
Import ListNotations.
Open Scope nat_scope.
Open Scope string_scope.
Open Scope list_scope.

(** ** Orders that do not matter *)
Lemma flat_map_perm {A B} (g : A -> list B) l l' : Permutation l l' -> (forall x y, In x l -> In y l -> g x <> [] -> g y <> [] -> x = y) -> flat_map g l = flat_map g l'.
Proof.
  intros P. induction P as [|x l l' P IH|x y l|l l' l'' P1 IH1 P2 IH2]; intros U.
  - reflexivity.
  - cbn. f_equal. apply IH. intros a b Ha Hb. apply U; right; assumption.
  - cbn. rewrite !app_assoc. f_equal. destruct (g x) as [|a s] eqn:Ex; [rewrite app_nil_r; reflexivity|]. destruct (g y) as [|b t] eqn:Ey; [rewrite app_nil_r; reflexivity|].
    assert (x = y) as -> by (apply U; [right; left|left| |]; try reflexivity; congruence). rewrite Ex in Ey. injection Ey as -> ->. reflexivity.
  - rewrite IH1 by exact U. apply IH2. intros a b Ha Hb. apply U; (eapply Permutation_in; [apply Permutation_sym; exact P1|assumption]).
Qed.
Lemma flat_flat {X Y Z} (f : X -> list Y) (g : Y -> list Z) xs : flat_map g (flat_map f xs) = flat_map (fun x => flat_map g (f x)) xs.
Proof. induction xs as [|x xs IH]; [reflexivity|]. cbn. rewrite flat_map_app, IH. reflexivity. Qed.
Lemma registered_flat {A} (f : cval -> list A) k ms ms' : k <> KOther -> (forall m, f m <> [] -> ckind_of m = k) -> registered ms -> Permutation ms' ms -> flat_map f (flat_map snd ms') = flat_map f (flat_map snd ms).
Proof.
  intros NK F [D R] P. rewrite !flat_flat. apply flat_map_perm; [exact P|]. intros [n vs] [n' vs'] Hx Hy Ex Ey. cbn [snd] in *.
  assert (E : forall l, flat_map f l <> [] -> exists m, In m l /\ f m <> []).
  { clear. intros l. induction l as [|m l IH]; cbn; [congruence|]. destruct (f m) eqn:E; [|intros _; exists m; split; [auto|congruence]]. cbn. intros K. destruct (IH K) as (m' & Hm & K'). eauto. }
  destruct (E _ Ex) as (m & Hm & Fm). destruct (E _ Ey) as (m' & Hm' & Fm'). apply (Permutation_in _ P) in Hx. apply (Permutation_in _ P) in Hy.
  assert (n = n') as -> by (apply (R n vs m n' vs' m'); auto; [rewrite (F _ Fm), (F _ Fm'); reflexivity|rewrite (F _ Fm); exact NK]). f_equal.
  clear -D Hx Hy. induction ms as [|[a b] ms IH]; [destruct Hx|]. cbn in D. inversion D as [|? ? N D']; subst. destruct Hx as [Hx|Hx], Hy as [Hy|Hy].
  - congruence.
  - exfalso. apply N. injection Hx as -> _. apply (in_map fst) in Hy. exact Hy.
  - exfalso. apply N. injection Hy as -> _. apply (in_map fst) in Hx. exact Hx.
  - apply IH; assumption.
Qed.
Definition opt_list {A} (o : option A) : list A := match o with Some x => [x] | None => [] end.
Fixpoint last_opt {A} (l : list A) : option A := match l with [] => None | x :: l' => match last_opt l' with Some y => Some y | None => Some x end end.
Lemma last_of_flat {A} (f : cval -> option A) l : last_of f l = last_opt (flat_map (fun m => opt_list (f m)) l).
Proof. induction l as [|m l IH]; [reflexivity|]. cbn. rewrite IH. destruct (f m) as [x|]; cbn; [reflexivity|]. destruct (last_opt _); reflexivity. Qed.
Lemma in_flat (ms ms' : cmarkers) m : Permutation ms' ms -> In m (flat_map snd ms') <-> In m (flat_map snd ms).
Proof. intros P. rewrite !in_flat_map. split; intros (x & Hx & Hm); exists x; (split; [|exact Hm]); (eapply Permutation_in; [|exact Hx]); [exact P|apply Permutation_sym, P]. Qed.
Lemma spec_reorder n sch ms ms' P v : registered ms -> Permutation ms' ms -> version_spec n sch (flat_map snd ms') P v -> version_spec n sch (flat_map snd ms) P v.
Proof.
  intros R Pm H. pose proof (fun m => in_flat ms ms' m Pm) as I.
  assert (L1 : last_of warning_in (flat_map snd ms') = last_of warning_in (flat_map snd ms)).
  { rewrite !last_of_flat. f_equal. apply (registered_flat _ KDeprecated); auto; [discriminate|]. intros [] K; cbn in *; try congruence. }
  assert (L2 : last_of scale_in (flat_map snd ms') = last_of scale_in (flat_map snd ms)).
  { rewrite !last_of_flat. f_equal. apply (registered_flat _ KScale); auto; [discriminate|]. intros [] K; cbn in *; try congruence. }
  assert (L3 : columns_in (flat_map snd ms') = columns_in (flat_map snd ms)).
  { apply (registered_flat _ KColumn); auto; [discriminate|]. intros [] K; cbn in *; try congruence. }
  assert (L4 : fields_in (flat_map snd ms') = fields_in (flat_map snd ms)).
  { apply (registered_flat _ KSelectable); auto; [discriminate|]. intros [] K; cbn in *; try congruence. }
  destruct H as [H1 H2 H3 H4 H5 H6 H7 H8 H9 H10 H11]. split; auto; try congruence.
  - rewrite H3, I. reflexivity.
  - rewrite H4, I. reflexivity.
  - rewrite H5. split; intros (K1 & w & K2); (split; [exact K1|]); exists w; apply I, K2.
  - rewrite <- L1. exact H6.
  - rewrite H7. split; intros K m Hm; apply K, I, Hm.
  - intros s E. rewrite (H8 s E), I. reflexivity.
  - intros s E. rewrite (H9 s E). exact L2.
Qed.

(** ** Metadata *)
Lemma cut_eq_some s k v : cut_eq s = Some (k, v) <-> pair_in s (k, v).
Proof.
  unfold pair_in. cbn [fst snd]. revert k. induction s as [|c s IH]; intros k; cbn.
  - split; [discriminate|]. intros [E _]. destruct k; discriminate.
  - destruct (Ascii.eqb_spec c "="%char) as [->|Ec].
    + split.
      * intros H. injection H as <- <-. split; reflexivity.
      * intros [E N]. destruct k as [|c' k]; [injection E as <-; reflexivity|]. injection E as <- _. discriminate.
    + destruct (cut_eq s) as [[a b]|].
      * split.
        -- intros H. injection H as <- ->. destruct (proj1 (IH a) eq_refl) as [-> Na]. split; [reflexivity|]. cbn. destruct (Ascii.eqb_spec c "="%char); [contradiction|exact Na].
        -- intros [E N]. destruct k as [|c' k]; [injection E as -> _; contradiction|]. injection E as <- E. cbn in N. destruct (Ascii.eqb c "="%char) in N; [discriminate|]. assert (K : Some (a, b) = Some (k, v)) by (apply IH; auto). congruence.
      * split; [discriminate|]. intros [E N]. destruct k as [|c' k]; [injection E as -> _; contradiction|]. injection E as <- E. cbn in N. destruct (Ascii.eqb c "="%char) in N; [discriminate|]. assert (K : None = Some (k, v)) by (apply IH; auto). discriminate.
Qed.
Lemma cut_eq_none s : cut_eq s = None <-> ~ well_formed s.
Proof.
  unfold well_formed. induction s as [|c s IH]; cbn; [split; [discriminate|reflexivity]|]. destruct (Ascii.eqb c "="%char); cbn; [split; [discriminate|congruence]|].
  destruct (cut_eq s) as [[a b]|]; [|tauto]. split; [discriminate|]. intros K. destruct IH as [_ IH]. discriminate (IH K).
Qed.
Lemma annotations_good a : snd (add_annotations a []) = false <-> Forall well_formed a.
Proof.
  induction a as [|s a IH]; [split; constructor|]. cbn. destruct (cut_eq s) as [[k v]|] eqn:E.
  - rewrite (annotations_bad a _ []), IH. split; [intros K; constructor; [|exact K]|intros K; inversion K; assumption].
    destruct (bool_dec (has_char "="%char s) true) as [W|W]; [exact W|]. exfalso. apply cut_eq_none in W. congruence.
  - split; [discriminate|]. intros K. inversion K; subst. apply cut_eq_none in E. contradiction.
Qed.
Lemma labels_good l m : add_labels l m <> None <-> Forall well_formed l.
Proof.
  revert m. induction l as [|s l IH]; intros m; cbn; [split; [constructor|discriminate]|]. destruct (cut_eq s) as [[k v]|] eqn:E.
  - rewrite IH. split; [intros K; constructor; [|exact K]|intros K; inversion K; assumption].
    destruct (bool_dec (has_char "="%char s) true) as [W|W]; [exact W|]. exfalso. apply cut_eq_none in W. congruence.
  - split; [congruence|]. intros K. inversion K; subst. apply cut_eq_none in E. contradiction.
Qed.
Lemma mpanic_iff m : mpanic m = true <-> exists a l, m = CMetadata a l /\ Forall well_formed a /\ ~ Forall well_formed l.
Proof.
  destruct m; cbn; try (split; [discriminate|intros (? & ? & [=] & _)]). rewrite andb_true_iff, negb_true_iff, annotations_good. split.
  - intros [K1 K2]. exists annotations, labels. split; [reflexivity|]. split; [exact K1|]. rewrite <- (labels_good labels []). destruct (add_labels labels []); [discriminate|auto].
  - intros (a & l & E & K1 & K2). injection E as -> ->. split; [exact K1|]. rewrite <- (labels_good l []) in K2. destruct (add_labels l []); [exfalso; apply K2; discriminate|reflexivity].
Qed.
(** What is put into a map *)
Definition puts (l : list (string * string)) (m : list (string * string)) : list (string * string) := fold_left (fun m kv => mset String.eqb m (fst kv) (snd kv)) l m.
Fixpoint good_pairs (a : list string) : list (string * string) := match a with [] => [] | s :: a' => match cut_eq s with Some kv => kv :: good_pairs a' | None => [] end end.
Lemma annotations_puts a : forall m, fst (add_annotations a m) = puts (good_pairs a) m.
Proof. induction a as [|s a IH]; intros m; [reflexivity|]. cbn. destruct (cut_eq s) as [[k v]|]; [apply IH|reflexivity]. Qed.
Lemma labels_puts l : forall m x, add_labels l m = Some x -> x = puts (good_pairs l) m.
Proof. induction l as [|s l IH]; intros m x H; [injection H as ->; reflexivity|]. cbn in *. destruct (cut_eq s) as [[k v]|]; [apply (IH _ _ H)|discriminate]. Qed.
Lemma good_pairs_in a kv : In kv (good_pairs a) <-> exists pre s post, a = pre ++ s :: post /\ Forall well_formed pre /\ pair_in s kv.
Proof.
  destruct kv as [k v]. induction a as [|s a IH]; cbn.
  - split; [intros []|]. intros ([|] & z & post & K & _); discriminate K.
  - destruct (cut_eq s) as [[k' v']|] eqn:E.
    + assert (W : well_formed s) by (destruct (bool_dec (has_char "="%char s) true) as [W|W]; [exact W|]; exfalso; apply cut_eq_none in W; congruence). split.
      * intros [K|K]; [injection K as -> ->; exists [], s, a; split; [reflexivity|]; split; [constructor|apply cut_eq_some, E]|]. apply IH in K as (pre & s' & post & -> & F & P). exists (s :: pre), s', post. split; [reflexivity|]. split; [constructor; assumption|exact P].
      * intros (pre & s' & post & Ea & F & P). destruct pre as [|s0 pre]; injection Ea as -> ->; [left; apply cut_eq_some in P; congruence|]. right. apply IH. inversion F; subst. exists pre, s', post. auto.
    + split; [intros []|]. intros (pre & s' & post & Ea & F & P). destruct pre as [|s0 pre]; injection Ea as -> ->; [apply cut_eq_some in P; congruence|]. inversion F; subst. apply cut_eq_none in E. contradiction.
Qed.
Definition ann_pairs (m : cval) : list (string * string) := match m with CMetadata a _ => good_pairs a | _ => [] end.
Definition lab_pairs (m : cval) : list (string * string) := match m with CMetadata a l => if snd (add_annotations a []) then [] else good_pairs l | _ => [] end.
Lemma ann_pairs_in m kv : In kv (ann_pairs m) <-> annotates m kv.
Proof.
  destruct m; cbn; try (split; [intros []|intros (? & ? & ? & ? & ? & [=] & _)]). rewrite good_pairs_in. split.
  - intros (pre & s & post & E & F & P). exists annotations, labels, pre, s, post. auto.
  - intros (a & l & pre & s & post & E & E' & F & P). injection E as <- <-. exists pre, s, post. auto.
Qed.
Lemma lab_pairs_in m kv : mpanic m = false -> In kv (lab_pairs m) <-> labels m kv.
Proof.
  intros NP. destruct m; cbn; try (split; [intros []|intros (? & ? & ? & [=] & _)]). destruct (snd (add_annotations annotations [])) eqn:E.
  - split; [intros []|]. intros (a & l & s & Em & F & _). injection Em as <- <-. apply annotations_good in F. congruence.
  - assert (F : Forall well_formed annotations) by (apply annotations_good, E). assert (L : Forall well_formed labels).
    { apply (labels_good labels []). intros K. cbn in NP. rewrite E, K in NP. discriminate. }
    rewrite good_pairs_in. split.
    + intros (pre & s & post & El & _ & P). exists annotations, labels, s. split; [reflexivity|]. split; [exact F|]. split; [rewrite El; apply in_or_app; right; left; reflexivity|exact P].
    + intros (a & l & s & Em & _ & Hs & P). injection Em as <- <-. apply in_split in Hs as (pre & post & El). exists pre, s, post. split; [exact El|]. split; [|exact P]. rewrite El in L. apply Forall_app in L. apply L.
Qed.
Lemma astep_puts m l : astep m l = puts (ann_pairs m) l.
Proof. destruct m; cbn; try reflexivity. apply annotations_puts. Qed.
Lemma lstep_puts m l : mpanic m = false -> lstep m l = puts (lab_pairs m) l.
Proof.
  destruct m; cbn; try reflexivity. destruct (snd (add_annotations annotations [])); [reflexivity|]. cbn. intros NP. pose proof (labels_panic labels [] l) as P. destruct (add_labels labels []); [|discriminate].
  destruct (add_labels labels l) as [x|] eqn:E; [|destruct P as [_ P]; discriminate (P eq_refl)]. apply labels_puts, E.
Qed.
Lemma puts_app l l' m : puts (l ++ l') m = puts l' (puts l m).
Proof. unfold puts. apply fold_left_app. Qed.
Lemma puts_get l : forall m k v, mget String.eqb (puts l m) k = Some v -> In (k, v) l \/ mget String.eqb m k = Some v.
Proof.
  induction l as [|[a b] l IH]; intros m k v H; [auto|]. cbn in H. apply IH in H as [H|H]; [left; right; exact H|]. destruct (string_dec k a) as [->|N].
  - rewrite (mget_mset_eq _ _ _ String.eqb_eq) in H. injection H as ->. left. left. reflexivity.
  - rewrite (mget_mset_ne _ _ _ String.eqb_eq) in H by exact N. auto.
Qed.
Lemma puts_has l : forall m k, (In k (map fst l) \/ mget String.eqb m k <> None) -> mget String.eqb (puts l m) k <> None.
Proof.
  induction l as [|[a b] l IH]; intros m k H; [destruct H as [[]|H]; exact H|]. cbn [puts fold_left]. apply IH. cbn [fst snd map In] in *. destruct (string_dec k a) as [->|N].
  - right. rewrite (mget_mset_eq _ _ _ String.eqb_eq). discriminate.
  - destruct H as [[K|K]|K]; [congruence|auto|]. right. rewrite (mget_mset_ne _ _ _ String.eqb_eq) by exact N. exact K.
Qed.

(** ** NeedCRDFor *)
Section Need.
  Variable gv_order : list (string * (string * string)) -> list (string * (string * string)).
  Variable m_order : cmarkers -> cmarkers.
  Variable v_sort : list version -> list version.
  Variable group_versions : list (string * (string * string)).
  Variable types : string * string -> option cmarkers.
  Variable schema_for : string * string -> schema.
  Hypothesis Hg : is_order gv_order.
  Hypothesis Hm : is_order m_order.
  Hypothesis Hv : sorts_by (fun a b => str_ltb (v_name a) (v_name b)) v_sort.
  Variables group kind : string.
  Notation defines := (defines group_versions types group kind).
  Notation carries := (carries group_versions types group kind).
  Notation skipped := (skipped group_versions types group kind).
  Notation kept := (kept group_versions types group kind).
  Notation packages := (packages_of gv_order group_versions group).

  Definition values (ms : cmarkers) : list cval := flat_map snd (m_order ms).
  Definition steps (l : list (string * string)) : list step :=
    flat_map (fun x => match types (fst x, kind) with None => [] | Some ms => map (fun m => (fst x, snd x, m)) (values ms) end) l.
  Definition steps1 (p n : string) : list step := match types (p, kind) with None => [] | Some ms => map (fun m => (p, n, m)) (values ms) end.
  Lemma steps_cons p n l : steps ((p, n) :: l) = steps1 p n ++ steps l.
  Proof. reflexivity. Qed.
  Lemma pkgs_run l : forall c, apply_pkgs m_order types kind l c =
    if existsb (fun s => mpanic (s_val s)) (steps l) then None else Some (fold_left run1 (steps l) c, run_errs (steps l) (c_versions c)).
  Proof.
    induction l as [|[p n] l IH]; intros c; [reflexivity|]. rewrite steps_cons. unfold steps1. cbn [apply_pkgs]. destruct (types (p, kind)) as [ms|]; [|apply IH].
    rewrite vals_run. change (flat_map snd (m_order ms)) with (values ms). rewrite existsb_app, fold_left_app, run_errs_app.
    assert (E : existsb (fun s => mpanic (s_val s)) (@map cval (string * string * cval)%type (fun m => (p, n, m)) (values ms)) = existsb mpanic (values ms)).
    { induction (values ms) as [|m vs IHv]; [reflexivity|]. cbn. rewrite IHv. reflexivity. }
    rewrite E. destruct (existsb mpanic (values ms)); [reflexivity|]. cbn [orb]. rewrite IH. destruct (existsb (fun s => mpanic (s_val s)) (steps l)); reflexivity.
  Qed.
  Lemma in_packages p n : In (p, n) packages <-> In (p, (group, n)) group_versions.
  Proof.
    unfold packages_of. rewrite in_flat_map. split.
    - intros ([p' [g n']] & Hx & K). cbn [fst snd] in K. destruct (String.eqb_spec g group) as [->|]; [|destruct K]. destruct K as [K|[]]. injection K as -> ->. apply (Permutation_in _ (Hg _)), Hx.
    - intros K. exists (p, (group, n)). split; [apply (Permutation_in _ (Permutation_sym (Hg _))), K|]. cbn. rewrite String.eqb_refl. left. reflexivity.
  Qed.
  Lemma in_values m ms : In m (values ms) <-> exists name vs, In (name, vs) ms /\ In m vs.
  Proof.
    unfold values. rewrite (in_flat _ _ m (Hm ms)), in_flat_map. split.
    - intros ([name vs] & H1 & H2). eauto.
    - intros (name & vs & H1 & H2). exists (name, vs). auto.
  Qed.
  Lemma in_steps p n m : In (p, n, m) (steps packages) <-> carries p n m.
  Proof.
    unfold steps. rewrite in_flat_map. split.
    - intros ([p' n'] & Hx & K). cbn [fst snd] in K. destruct (types (p', kind)) as [ms|] eqn:E; [|destruct K]. apply in_map_iff in K as (m' & K & Hmv). injection K as -> -> ->. apply in_packages in Hx.
      apply in_values in Hmv as (name & vs & H1 & H2). exists ms, name, vs. repeat split; assumption.
    - intros (ms & name & vs & [H1 H2] & H3 & H4). exists (p, n). split; [apply in_packages, H1|]. cbn [fst snd]. rewrite H2. apply in_map_iff. exists m. split; [reflexivity|]. apply in_values. eauto.
  Qed.
  Notation final := (vrun (steps packages) (versions_of types schema_for kind packages)).
  Section Run.
  Variable pluralize lower : string -> string.
  Notation need := (need_crd pluralize lower gv_order m_order v_sort group_versions types schema_for group kind).
  Definition start : crd := set_versions (crd_for pluralize lower group kind) (versions_of types schema_for kind packages).
  Definition ended : crd := fold_left run1 (steps packages) start.
  Lemma need_run : need =
    if existsb (fun s => mpanic (s_val s)) (steps packages) then CPanic
    else let c := set_cname ended (n_plural (c_names ended) ++ "." ++ group) in
      match final with
      | [] => CDone None (run_errs (steps packages) (c_versions start))
      | _ => let vs := default_storage (v_sort final) in let first := match packages with (p, _) :: _ => p | [] => "" end in
          CDone (Some (set_versions c vs)) (run_errs (steps packages) (c_versions start) ++
            (if existsb v_storage vs then [] else [(first, ENoStorage)]) ++ (if existsb v_served vs then [] else [(first, ENotServed)]))
      end.
  Proof.
    unfold need_crd. rewrite pkgs_run. fold start. destruct (existsb _ (steps packages)); [reflexivity|]. cbv zeta.
    change (c_versions (set_cname (fold_left run1 (steps packages) start) (n_plural (c_names (fold_left run1 (steps packages) start)) ++ "." ++ group))) with (c_versions (fold_left run1 (steps packages) start)).
    rewrite run_versions. reflexivity.
  Qed.
  End Run.
  Lemma start_names n : In n (map v_name (versions_of types schema_for kind packages)) <-> exists p ms, defines p n ms.
  Proof.
    unfold versions_of. rewrite in_map_iff. split.
    - intros (v & <- & H). apply in_flat_map in H as ([p n'] & Hx & K). cbn [fst snd] in K. destruct (types (p, kind)) as [ms|] eqn:E; [|destruct K]. destruct K as [<-|[]]. exists p, ms. split; [apply in_packages, Hx|exact E].
    - intros (p & ms & H1 & H2). eexists. split; [|apply in_flat_map; exists (p, n); split; [apply in_packages, H1|]; cbn [fst snd]; rewrite H2; left; reflexivity]. reflexivity.
  Qed.
  Lemma final_names n : In n (map v_name final) <-> kept n.
  Proof.
    rewrite vrun_names, filter_In, start_names, negb_true_iff. unfold CrdSpec.kept, CrdSpec.skipped.
    assert (E : existsb (fun s => skips s && String.eqb n (s_ver s)) (steps packages) = true <-> n <> "" /\ exists p, carries p n CSkip).
    { rewrite existsb_exists. split.
      - intros ([[p n'] m] & Hs & K). unfold skips, s_val, s_ver in K. cbn [fst snd] in K. rewrite !andb_true_iff, negb_true_iff in K. destruct K as [[K1 K2] K3]. apply String.eqb_eq in K3. subst n'. apply String.eqb_neq in K2.
        split; [exact K2|]. exists p. destruct m; try discriminate. apply in_steps, Hs.
      - intros (N & p & C). exists (p, n, CSkip). split; [apply in_steps, C|]. unfold skips, s_val, s_ver. cbn. apply String.eqb_neq in N. rewrite N, String.eqb_refl. reflexivity. }
    rewrite <- E. destruct (existsb _ (steps packages)); intuition congruence.
  Qed.
  Lemma default_names vs : map v_name (default_storage vs) = map v_name vs.
  Proof. destruct vs as [|v [|]]; reflexivity. Qed.
  Lemma sorted_names n : In n (map v_name (default_storage (v_sort final))) <-> kept n.
  Proof.
    rewrite default_names, <- final_names. split; apply Permutation_in; [|apply Permutation_sym]; apply Permutation_map, Hv.
  Qed.
  Lemma names_sorted : StronglySorted (fun a b => str_ltb b a = false) (map v_name (default_storage (v_sort final))).
  Proof. rewrite default_names. destruct (Hv final) as [_ S]. induction S as [|v vs S IH F]; [constructor|]. cbn. constructor; [exact IH|]. apply Forall_map. exact F. Qed.

  (** *** Distinct versions *)
  Hypothesis Dg : NoDup (map fst group_versions).
  Definition distinct : Prop := forall p ms p' ms' n, defines p n ms -> defines p' n ms' -> p = p'.
  Definition vfinal (x : string * string) : list version := match types (fst x, kind) with None => [] | Some ms => vown (snd x) (values ms) (fresh (snd x) (schema_for (fst x, kind))) end.
  Lemma packages_nodup : NoDup packages.
  Proof.
    unfold packages_of. assert (D : NoDup (map fst (gv_order group_versions))) by (eapply Permutation_NoDup; [apply Permutation_map, Permutation_sym, Hg|exact Dg]).
    induction (gv_order group_versions) as [|[p [g n]] l IH]; [constructor|]. cbn in D. inversion D as [|? ? N D']; subst. cbn [flat_map fst snd]. destruct (String.eqb g group); cbn [app]; [constructor|]; auto.
    intros K. apply N. apply in_flat_map in K as ([p' [g' n']] & Hx & K). cbn [fst snd] in K. destruct (String.eqb g' group); [|destruct K]. destruct K as [K|[]]. injection K as -> ->. apply (in_map fst) in Hx. exact Hx.
  Qed.
  Lemma start_nodup : distinct -> NoDup (map v_name (versions_of types schema_for kind packages)).
  Proof.
    intros Di. unfold versions_of. pose proof packages_nodup as D. assert (Di' : forall p p' n ms ms', In (p, n) packages -> In (p', n) packages -> types (p, kind) = Some ms -> types (p', kind) = Some ms' -> p = p').
    { intros p p' n ms ms' H1 H2 T1 T2. apply in_packages in H1, H2. apply (Di p ms p' ms' n); split; assumption. }
    revert D Di'. generalize packages. intros ps. induction ps as [|[p n] ps IH]; intros D Di'; [constructor|]. inversion D as [|? ? N D']; subst. cbn [flat_map fst snd].
    assert (IH' : NoDup (map v_name (flat_map (fun x => match types (fst x, kind) with None => [] | Some _ => [mkVersion (snd x) true false false None (schema_for (fst x, kind)) None [] []] end) ps))).
    { apply IH; [exact D'|]. intros q q' m ms ms' H1 H2. apply Di' with m; right; assumption. }
    destruct (types (p, kind)) as [ms|] eqn:T; [|exact IH']. cbn. constructor; [|exact IH']. intros K. apply in_map_iff in K as (v & Ev & K). apply in_flat_map in K as ([p' n'] & Hx & K). cbn [fst snd] in K.
    destruct (types (p', kind)) as [ms'|] eqn:T'; [|destruct K]. destruct K as [<-|[]]. cbn in Ev. subst n'. assert (p = p') as <- by (apply (Di' p p' n ms ms'); auto; [left; reflexivity|right; exact Hx]). contradiction.
  Qed.
  Lemma mine_steps : distinct -> forall p n ms, In (p, n) packages -> types (p, kind) = Some ms -> mine n (steps packages) = values ms.
  Proof.
    intros Di. pose proof packages_nodup as D. assert (Di' : forall p p' n ms ms', In (p, n) packages -> In (p', n) packages -> types (p, kind) = Some ms -> types (p', kind) = Some ms' -> p = p').
    { intros p p' n ms ms' H1 H2 T1 T2. apply in_packages in H1, H2. apply (Di p ms p' ms' n); split; assumption. }
    assert (A : forall p n n' l, mine n (map (fun m => (p, n', m)) l) = if String.eqb n' n then l else []).
    { intros p n n' l. unfold mine. induction l as [|m l IH]; [destruct (String.eqb n' n); reflexivity|]. cbn [map filter]. change (s_ver (p, n', m)) with n'. destruct (String.eqb n' n); cbn [map]; [f_equal|]; exact IH. }
    assert (B : forall n l l', mine n (l ++ l') = mine n l ++ mine n l') by (intros n l l'; unfold mine; rewrite filter_app, map_app; reflexivity).
    revert D Di'. generalize packages. intros ps. induction ps as [|[p n] ps IH]; intros D Di' q m ms Hq T; [destruct Hq|]. inversion D as [|? ? N D']; subst. cbn [steps flat_map fst snd]. fold (steps ps). rewrite B.
    destruct Hq as [E|Hq].
    - injection E as -> ->. rewrite T, A, String.eqb_refl. assert (Z : mine m (steps ps) = []); [|rewrite Z; apply app_nil_r].
      assert (Z : forall x, In x (steps ps) -> String.eqb (s_ver x) m = false).
      { intros [[p' n'] v] Hx. apply String.eqb_neq. intros E. cbn in E. subst n'. unfold steps in Hx. apply in_flat_map in Hx as ([p2 n2] & Hx & K). cbn [fst snd] in K. destruct (types (p2, kind)) as [ms2|] eqn:T2; [|destruct K].
        apply in_map_iff in K as (v' & K & _). injection K as -> -> ->. assert (q = p') as <- by (apply (Di' q p' m ms ms2); auto; [left; reflexivity|right; exact Hx]). contradiction. }
      unfold mine. clear -Z. induction (steps ps) as [|x l IH]; [reflexivity|]. cbn. rewrite (Z x) by (left; reflexivity). apply IH. intros y Hy. apply Z. right. exact Hy.
    - rewrite (IH D') with (p := q) (ms := ms); auto; [|intros a b c d e H1 H2; apply Di' with c; right; assumption].
      destruct (types (p, kind)) as [ms0|] eqn:T0; [|reflexivity]. rewrite A. destruct (String.eqb_spec n m) as [->|]; [|reflexivity]. exfalso. apply N.
      assert (p = q) as -> by (apply (Di' p q m ms0 ms); auto; [left; reflexivity|right; exact Hq]). exact Hq.
  Qed.
  Lemma final_flat : distinct -> final = flat_map vfinal packages.
  Proof.
    intros Di. rewrite (vrun_flat _ _ (start_nodup Di)). unfold versions_of at 1. rewrite flat_flat.
    assert (E : forall l, incl l packages -> flat_map (fun x => flat_map (fun v => vown (v_name v) (mine (v_name v) (steps packages)) v)
       (match types (fst x, kind) with None => [] | Some _ => [mkVersion (snd x) true false false None (schema_for (fst x, kind)) None [] []] end)) l = flat_map vfinal l).
    { intros l. induction l as [|[p n] l IH]; intros I; [reflexivity|]. cbn [flat_map fst snd]. rewrite IH by (intros y Hy; apply I; right; exact Hy). f_equal. unfold vfinal. cbn [fst snd]. destruct (types (p, kind)) as [ms|] eqn:T; [|reflexivity].
      cbn [flat_map v_name]. rewrite app_nil_r. rewrite (mine_steps Di p n ms); [reflexivity|apply I; left; reflexivity|exact T]. }
    apply E. intros x Hx. exact Hx.
  Qed.
  Lemma final_nodup : distinct -> NoDup (map v_name final).
  Proof. intros Di. rewrite vrun_names. apply filter_nodup, start_nodup, Di. Qed.
  Lemma final_spec v : distinct -> In v final -> exists p ms, defines p (v_name v) ms /\ version_spec (v_name v) (schema_for (p, kind)) (values ms) False v.
  Proof.
    intros Di Hin. rewrite (final_flat Di) in Hin. apply in_flat_map in Hin as ([p n] & Hx & K). unfold vfinal in K. cbn [fst snd] in K. destruct (types (p, kind)) as [ms|] eqn:T; [|destruct K].
    unfold vown in K. destruct (existsb is_skip (values ms) && negb (String.eqb n "")); [destruct K|]. destruct K as [<-|[]]. pose proof (fresh_spec n (schema_for (p, kind)) (values ms)) as F. exists p, ms. rewrite (vs_name _ _ _ _ _ F). split; [split; [apply in_packages, Hx|exact T]|exact F].
  Qed.
  Lemma sorted_spec v : distinct -> In v (default_storage (v_sort final)) ->
    exists p ms, defines p (v_name v) ms /\ version_spec (v_name v) (schema_for (p, kind)) (values ms) (forall n, kept n -> n = v_name v) v.
  Proof.
    intros Di Hin. pose proof (proj1 (Hv final)) as P. pose proof (final_nodup Di) as ND. assert (K0 : forall n, kept n <-> In n (map v_name (v_sort final))).
    { intros n. rewrite <- final_names. split; apply Permutation_in; [apply Permutation_sym|]; apply Permutation_map, P. }
    assert (ND' : NoDup (map v_name (v_sort final))) by (eapply Permutation_NoDup; [apply Permutation_map, Permutation_sym, P|exact ND]).
    assert (F : forall w, In w (v_sort final) -> exists p ms, defines p (v_name w) ms /\ version_spec (v_name w) (schema_for (p, kind)) (values ms) False w).
    { intros w Hw. apply (final_spec w Di). apply (Permutation_in _ P), Hw. }
    destruct (v_sort final) as [|v1 [|v2 vs]] eqn:E; cbn [default_storage] in Hin.
    - destruct Hin.
    - destruct Hin as [<-|[]]. destruct (F v1) as (p & ms & Dp & S); [left; reflexivity|]. exists p, ms. split; [exact Dp|]. apply stored_spec in S. change (v_name (set_storage v1 true)) with (v_name v1).
      eapply spec_iff; [|exact S]. split; [|auto]. intros _ n Hn. apply K0 in Hn as [Hn|[]]. auto.
    - destruct (F v Hin) as (p & ms & Dp & S). exists p, ms. split; [exact Dp|]. eapply spec_iff; [|exact S]. split; [intros []|]. intros U. cbn in ND'. inversion ND' as [|? ? N _]; subst. apply N. left.
      rewrite (U (v_name v2)) by (apply K0; right; left; reflexivity). symmetry. apply U, K0. left. reflexivity.
  Qed.
End Need.
