(** * Proofs about CRD assembly. *)
From Coq Require Import List String Ascii Bool ZArith Permutation Sorted Lia.
From Verif Require Import GoLib GoLibFacts MapFacts SchemaModel CrdModel CrdSpec.
Import ListNotations.
Open Scope nat_scope.
Open Scope string_scope.
Open Scope list_scope.

(** ** One version *)
(** What a marker makes of its version *)
Definition vfun (n : string) (m : cval) (v : version) : version :=
  match m with
  | CStatus => set_sub v (mkSub true (su_scale (subs v)))
  | CScale s => set_sub v (mkSub (su_status (subs v)) (Some s))
  | CStorage => if String.eqb n "" then v else set_storage v true
  | CColumn col => set_columns (set_sub v (subs v)) (v_columns v ++ [col])
  | CUnserved => set_served v false
  | CDeprecated w => if String.eqb n "" then v else set_deprecated v w
  | CSelectable p => set_fields v (v_fields v ++ [p])
  | CSkip | CResource _ | CMetadata _ _ | COther => v
  end.
Definition is_skip (m : cval) : bool := match m with CSkip => true | _ => false end.
Definition vstep (n : string) (m : cval) (vs : list version) : list version :=
  if is_skip m && negb (String.eqb n "") then filter (fun v => negb (String.eqb (v_name v) n)) vs
  else match on_first n (vfun n m) vs with Some vs' => vs' | None => vs end.
Definition nstep (m : cval) (n : names) : names :=
  match m with
  | CResource r => mkNames (if String.eqb (r_path r) "" then n_plural n else r_path r) (if String.eqb (r_singular r) "" then n_singular n else r_singular r)
              (n_kind n) (n_list_kind n) (r_short r) (r_categories r) (if String.eqb (r_scope r) "" then "Namespaced" else r_scope r)
  | _ => n
  end.
Definition astep (m : cval) (l : list (string * string)) : list (string * string) := match m with CMetadata a _ => fst (add_annotations a l) | _ => l end.
Definition lstep (m : cval) (l : list (string * string)) : list (string * string) :=
  match m with CMetadata a ls => if snd (add_annotations a []) then l else match add_labels ls l with Some x => x | None => l end | _ => l end.
Definition mbad (n : string) (m : cval) (vs : list version) : bool :=
  match m with
  | CStatus | CScale _ | CColumn _ | CSelectable _ => match on_first n (fun v => v) vs with Some _ => false | None => true end
  | CSkip => String.eqb n ""
  | CMetadata a _ => snd (add_annotations a [])
  | _ => false
  end.
(** The panic *)
Definition mpanic (m : cval) : bool := match m with CMetadata a ls => negb (snd (add_annotations a [])) && match add_labels ls [] with Some _ => false | None => true end | _ => false end.

Lemma annotations_bad a : forall m m', snd (add_annotations a m) = snd (add_annotations a m').
Proof. induction a as [|s a IH]; intros m m'; [reflexivity|]. cbn. destruct (cut_eq s) as [[k v]|]; [apply IH|reflexivity]. Qed.
Lemma labels_panic l : forall m m', add_labels l m = None <-> add_labels l m' = None.
Proof. induction l as [|s l IH]; intros m m'; cbn; [split; discriminate|]. destruct (cut_eq s) as [[k v]|]; [apply IH|tauto]. Qed.
Lemma on_first_some n f l : (exists l', on_first n f l = Some l') <-> In n (map v_name l).
Proof.
  induction l as [|v l IH]; cbn; [split; [intros [? [=]]|intros []]|]. destruct (String.eqb (v_name v) n) eqn:E.
  - apply String.eqb_eq in E. split; [auto|]. eauto.
  - apply String.eqb_neq in E. destruct (on_first n f l) as [l''|].
    + split; [|eauto]. intros _. right. apply IH. eauto.
    + split; [intros [? [=]]|]. intros [K|K]; [contradiction|]. apply IH in K as [? [=]].
Qed.
Lemma on_first_none n f l : on_first n f l = None <-> ~ In n (map v_name l).
Proof. rewrite <- (on_first_some n f l). destruct (on_first n f l); split; try discriminate; try (intros H [? [=]]); auto. intros H. exfalso. apply H. eauto. Qed.
Lemma on_first_id n l : on_first n (fun v => v) l = None \/ on_first n (fun v => v) l = Some l.
Proof. induction l as [|v l IH]; cbn; [auto|]. destruct (String.eqb (v_name v) n); [auto|]. destruct IH as [-> | ->]; auto. Qed.
Lemma on_first_ext n f g l : (forall v, f v = g v) -> on_first n f l = on_first n g l.
Proof. intros E. induction l as [|v l IH]; cbn; [reflexivity|]. rewrite IH, E. reflexivity. Qed.
Lemma crd_eta c : set_versions c (c_versions c) = c. Proof. destruct c. reflexivity. Qed.

Definition cstep (n : string) (m : cval) (c : crd) : crd := mkCrd (c_name c) (astep m (c_annotations c)) (lstep m (c_labels c)) (c_group c) (nstep m (c_names c)) (vstep n m (c_versions c)).
(** A marker does each of these things *)
Lemma apply_step m n c : apply_crd m n c = if mpanic m then None else Some (cstep n m c, mbad n m (c_versions c)).
Proof.
  assert (V : forall f, match on_first n f (c_versions c) with Some vs => vs | None => c_versions c end = c_versions c -> True) by auto. clear V.
  assert (Id : forall m, (forall v, vfun n m v = v) -> is_skip m = false -> vstep n m (c_versions c) = c_versions c).
  { intros m' E K. unfold vstep. rewrite K. cbn [andb]. rewrite (on_first_ext n _ (fun v => v) _ E). destruct (on_first_id n (c_versions c)) as [-> | ->]; reflexivity. }
  assert (Must : forall f, match on_first n f (c_versions c) with Some vs => Some (set_versions c vs, false) | None => Some (c, true) end =
     Some (mkCrd (c_name c) (c_annotations c) (c_labels c) (c_group c) (c_names c) (match on_first n f (c_versions c) with Some vs => vs | None => c_versions c end), match on_first n (fun v => v) (c_versions c) with Some _ => false | None => true end)).
  { intros f. destruct (on_first n f (c_versions c)) as [vs|] eqn:E.
    - destruct (on_first n (fun v => v) (c_versions c)) eqn:E'; [reflexivity|]. exfalso. apply on_first_none in E'. apply E'. apply (on_first_some n f). eauto.
    - destruct (on_first n (fun v => v) (c_versions c)) eqn:E'; [|destruct c; reflexivity]. exfalso. apply on_first_none in E. apply E. apply (on_first_some n (fun v => v)). eauto. }
  assert (May : forall f, match on_first n f (c_versions c) with Some vs => Some (set_versions c vs, false) | None => Some (c, false) end =
     Some (mkCrd (c_name c) (c_annotations c) (c_labels c) (c_group c) (c_names c) (match on_first n f (c_versions c) with Some vs => vs | None => c_versions c end), false)).
  { intros f. destruct (on_first n f (c_versions c)) as [vs|]; [reflexivity|destruct c; reflexivity]. }
  destruct m as [|s| | |col|r| |w|a l|p|]; cbn [mpanic]; unfold cstep; cbn [astep lstep nstep mbad]; unfold apply_crd.
  - apply Must.
  - apply Must.
  - destruct (String.eqb n "") eqn:E; [|rewrite May; unfold vstep; cbn [is_skip andb]; rewrite (on_first_ext n (vfun n CStorage) (fun v => set_storage v true)) by (intros v; cbn; rewrite E; reflexivity); reflexivity].
    rewrite (Id CStorage); [destruct c; reflexivity| |reflexivity]. intros v. cbn. rewrite E. reflexivity.
  - destruct (String.eqb n "") eqn:E.
    + unfold vstep. rewrite E. cbn [negb is_skip andb]. rewrite (on_first_ext n _ (fun v => v)) by reflexivity. destruct (on_first_id n (c_versions c)) as [-> | ->]; destruct c; reflexivity.
    + unfold vstep. rewrite E. reflexivity.
  - apply Must.
  - rewrite (Id (CResource r)) by reflexivity. destruct c. reflexivity.
  - apply May.
  - destruct (String.eqb n "") eqn:E; [|rewrite May; unfold vstep; cbn [is_skip andb]; rewrite (on_first_ext n (vfun n (CDeprecated w)) (fun v => set_deprecated v w)) by (intros v; cbn; rewrite E; reflexivity); reflexivity].
    rewrite (Id (CDeprecated w)); [destruct c; reflexivity| |reflexivity]. intros v. cbn. rewrite E. reflexivity.
  - rewrite (Id (CMetadata a l)) by reflexivity. rewrite (annotations_bad a [] (c_annotations c)). destruct (add_annotations a (c_annotations c)) as [x bad]. cbn [fst snd]. destruct bad; cbn [negb andb]; [destruct c; reflexivity|].
    pose proof (labels_panic l [] (c_labels c)) as P. destruct (add_labels l []) as [y|], (add_labels l (c_labels c)) as [z|]; cbn; try reflexivity; exfalso; destruct P as [P1 P2]; [discriminate P2|discriminate P1]; reflexivity.
  - apply Must.
  - rewrite (Id COther) by reflexivity. destruct c. reflexivity.
Qed.

(** ** All markers: a list of steps *)
Definition step := (string * string * cval)%type.
Definition s_ver (s : step) : string := snd (fst s).
Definition s_val (s : step) : cval := snd s.
Definition run1 (c : crd) (s : step) : crd := cstep (s_ver s) (s_val s) c.
Fixpoint run_errs (l : list step) (vs : list version) : list (string * cerr) :=
  match l with
  | [] => []
  | s :: l' => (if mbad (s_ver s) (s_val s) vs then [(fst (fst s), EMarker (s_val s))] else []) ++ run_errs l' (vstep (s_ver s) (s_val s) vs)
  end.
Lemma vals_run pkg n l : forall c, apply_vals pkg n l c =
  if existsb mpanic l then None else Some (fold_left run1 (map (fun m => (pkg, n, m)) l) c, run_errs (map (fun m => (pkg, n, m)) l) (c_versions c)).
Proof.
  induction l as [|m l IH]; intros c; [reflexivity|]. cbn [apply_vals existsb map fold_left run_errs]. rewrite apply_step. destruct (mpanic m); [reflexivity|]. cbn [orb]. rewrite IH.
  destruct (existsb mpanic l); reflexivity.
Qed.
Lemma run_errs_app l : forall l' c, run_errs (l ++ l') (c_versions c) = run_errs l (c_versions c) ++ run_errs l' (c_versions (fold_left run1 l c)).
Proof. induction l as [|s l IH]; intros l' c; [reflexivity|]. cbn [app run_errs fold_left]. rewrite <- app_assoc. f_equal. apply (IH l' (run1 c s)). Qed.

Lemma run_versions l : forall c, c_versions (fold_left run1 l c) = fold_left (fun vs s => vstep (s_ver s) (s_val s) vs) l (c_versions c).
Proof. induction l as [|s l IH]; intros c; [reflexivity|]. cbn. rewrite IH. reflexivity. Qed.
Lemma run_names l : forall c, c_names (fold_left run1 l c) = fold_left (fun n s => nstep (s_val s) n) l (c_names c).
Proof. induction l as [|s l IH]; intros c; [reflexivity|]. cbn. rewrite IH. reflexivity. Qed.
Lemma run_annotations l : forall c, c_annotations (fold_left run1 l c) = fold_left (fun n s => astep (s_val s) n) l (c_annotations c).
Proof. induction l as [|s l IH]; intros c; [reflexivity|]. cbn. rewrite IH. reflexivity. Qed.
Lemma run_labels l : forall c, c_labels (fold_left run1 l c) = fold_left (fun n s => lstep (s_val s) n) l (c_labels c).
Proof. induction l as [|s l IH]; intros c; [reflexivity|]. cbn. rewrite IH. reflexivity. Qed.
Lemma run_same l : forall c, c_group (fold_left run1 l c) = c_group c /\ c_name (fold_left run1 l c) = c_name c.
Proof. induction l as [|s l IH]; intros c; [auto|]. cbn. apply (IH (run1 c s)). Qed.

(** *** Versions *)
Lemma vfun_name n m v : v_name (vfun n m v) = v_name v.
Proof. destruct m; cbn; try reflexivity; destruct (String.eqb n ""); reflexivity. Qed.
Lemma on_first_names n f l l' : (forall v, v_name (f v) = v_name v) -> on_first n f l = Some l' -> map v_name l' = map v_name l.
Proof.
  intros E. revert l'. induction l as [|v l IH]; cbn; intros l' H; [discriminate|]. destruct (String.eqb (v_name v) n); [injection H as <-; cbn; rewrite E; reflexivity|].
  destruct (on_first n f l) as [l''|]; [|discriminate]. injection H as <-. cbn. rewrite (IH l'' eq_refl). reflexivity.
Qed.
Definition skips (s : step) : bool := is_skip (s_val s) && negb (String.eqb (s_ver s) "").
Lemma vstep_names s vs : map v_name (vstep (s_ver s) (s_val s) vs) = if skips s then filter (fun n => negb (String.eqb n (s_ver s))) (map v_name vs) else map v_name vs.
Proof.
  unfold vstep, skips. destruct (is_skip (s_val s) && negb (String.eqb (s_ver s) "")).
  - induction vs as [|v vs IH]; [reflexivity|]. cbn. destruct (String.eqb (v_name v) (s_ver s)); cbn; rewrite IH; reflexivity.
  - destruct (on_first _ _ vs) as [vs'|] eqn:E; [|reflexivity]. apply (on_first_names _ _ _ _ (vfun_name _ _) E).
Qed.
Notation vrun l ws := (fold_left (fun vs s => vstep (s_ver s) (s_val s) vs) l ws).
Lemma vrun_names l : forall vs, map v_name (vrun l vs) = filter (fun n => negb (existsb (fun s => skips s && String.eqb n (s_ver s)) l)) (map v_name vs).
Proof.
  induction l as [|s l IH]; intros vs; cbn [fold_left existsb].
  - cbn. induction (map v_name vs) as [|n ns IHn]; [reflexivity|]. cbn. rewrite <- IHn. reflexivity.
  - rewrite IH, vstep_names. destruct (skips s) eqn:E; cbn [andb orb]; [|reflexivity]. induction (map v_name vs) as [|n ns IHn]; [reflexivity|]. cbn [filter].
    destruct (String.eqb n (s_ver s)); cbn [negb orb filter]; [exact IHn|]. rewrite IHn. reflexivity.
Qed.
(** With distinct names, a marker looks at its own version only *)
Definition vone (n : string) (m : cval) (v : version) : list version := if is_skip m && negb (String.eqb n "") then [] else [vfun n m v].
Lemma vstep_flat n m vs : NoDup (map v_name vs) -> vstep n m vs = flat_map (fun v => if String.eqb (v_name v) n then vone n m v else [v]) vs.
Proof.
  unfold vstep, vone. destruct (is_skip m && negb (String.eqb n "")).
  - intros _. induction vs as [|v vs IH]; [reflexivity|]. cbn. destruct (String.eqb (v_name v) n); cbn; [exact IH|rewrite IH; reflexivity].
  - induction vs as [|v vs IH]; intros D; [reflexivity|]. cbn in D. inversion D as [|? ? N D']; subst. cbn [on_first flat_map]. destruct (String.eqb (v_name v) n) eqn:E.
    + apply String.eqb_eq in E. cbn. f_equal. clear -N E. induction vs as [|w vs IH]; [reflexivity|]. cbn in *. destruct (String.eqb (v_name w) n) eqn:E'; [apply String.eqb_eq in E'; exfalso; apply N; left; congruence|].
      cbn. f_equal. apply IH. intros K. apply N. right. exact K.
    + cbn. rewrite <- (IH D'). destruct (on_first n (vfun n m) vs); reflexivity.
Qed.
Lemma filter_nodup {A} (f : A -> bool) l : NoDup l -> NoDup (filter f l).
Proof. intros D. induction D as [|x l N D IH]; [constructor|]. cbn. destruct (f x); [constructor|]; auto. intros K. apply N. apply filter_In in K. apply K. Qed.
Definition mine (n : string) (l : list step) : list cval := map s_val (filter (fun s => String.eqb (s_ver s) n) l).
Definition vown (n : string) (l : list cval) (v : version) : list version := if existsb is_skip l && negb (String.eqb n "") then [] else [fold_left (fun v m => vfun n m v) l v].
Lemma vown_cons n m l v : vown n (m :: l) v = flat_map (vown n l) (vone n m v).
Proof.
  unfold vown, vone. cbn [existsb fold_left]. destruct (is_skip m) eqn:E, (String.eqb n ""); cbn [negb andb orb flat_map]; try reflexivity; rewrite ?andb_false_r, ?app_nil_r; try reflexivity.
Qed.
Lemma vrun_flat l : forall vs, NoDup (map v_name vs) -> vrun l vs = flat_map (fun v => vown (v_name v) (mine (v_name v) l) v) vs.
Proof.
  induction l as [|s l IH]; intros vs D; cbn [fold_left].
  - unfold mine, vown. cbn. induction vs as [|v vs IHv]; [reflexivity|]. cbn. f_equal. apply IHv. inversion D. assumption.
  - rewrite IH; [|rewrite vstep_names; destruct (skips s); [apply filter_nodup|]; exact D]. rewrite (vstep_flat _ _ _ D).
    assert (A : forall {X Y Z} (f : X -> list Y) (g : Y -> list Z) xs, flat_map g (flat_map f xs) = flat_map (fun x => flat_map g (f x)) xs).
    { intros X Y Z f g xs. induction xs as [|x xs IHx]; [reflexivity|]. cbn. rewrite flat_map_app, IHx. reflexivity. }
    rewrite A. apply flat_map_ext. intros v. unfold mine. cbn [filter]. destruct (String.eqb (v_name v) (s_ver s)) eqn:E.
    + apply String.eqb_eq in E. rewrite <- E, String.eqb_refl. cbn [map]. rewrite vown_cons. unfold vone. destruct (is_skip (s_val s) && negb (String.eqb (v_name v) "")); [reflexivity|]. cbn [flat_map]. rewrite vfun_name. reflexivity.
    + rewrite String.eqb_sym, E. cbn [flat_map]. rewrite app_nil_r. reflexivity.
Qed.

(** *** The fields of a version *)
Definition fresh (n : string) (s : schema) : version := mkVersion n true false false None s None [] [].
Section After.
  Variable n : string.
  Notation RUN l v := (fold_left (fun v m => vfun n m v) l v).
  Ltac step := intros v; cbn [fold_left]; match goal with IH : _ |- _ => rewrite IH; clear IH end; destruct (String.eqb_spec n "") as [En|En]; match goal with m : cval |- _ => destruct m end; cbn;
    rewrite ?En; cbn; try (apply String.eqb_neq in En as En'; rewrite En'; cbn).
  Lemma run_served l : forall v, v_served (RUN l v) = true <-> v_served v = true /\ ~ In CUnserved l.
  Proof. induction l as [|m l IH]; [cbn; intuition|]. step; intuition congruence. Qed.
  Lemma run_storage l : forall v, v_storage (RUN l v) = true <-> v_storage v = true \/ (n <> "" /\ In CStorage l).
  Proof. induction l as [|m l IH]; [cbn; intuition|]. step; intuition congruence. Qed.
  Lemma run_deprecated l : forall v, v_deprecated (RUN l v) = true <-> v_deprecated v = true \/ (n <> "" /\ exists w, In (CDeprecated w) l).
  Proof.
    induction l as [|m l IH]; [cbn; intros v; split; [auto|intros [K|(_ & w & [])]; exact K]|].
    assert (E : forall m, (forall w, m <> CDeprecated w) -> (exists w, In (CDeprecated w) (m :: l)) <-> exists w, In (CDeprecated w) l).
    { intros m' N. split; intros (w & K); exists w; [destruct K as [K|K]; [destruct (N w K)|exact K]|right; exact K]. }
    intros v. cbn [fold_left]. rewrite IH. destruct (String.eqb_spec n "") as [En|En].
    - destruct m; cbn [vfun]; try (apply String.eqb_eq in En as En'; rewrite En'); cbn; intuition congruence.
    - apply String.eqb_neq in En as En'. destruct m; try (rewrite E by discriminate); cbn [vfun]; rewrite ?En'; cbn; try tauto. split; [|auto]. intros _. right. split; [exact En|]. eexists. left. reflexivity.
  Qed.
  Lemma run_warning l : forall v, v_warning (RUN l v) = if String.eqb n "" then v_warning v else match last_of warning_in l with Some w => w | None => v_warning v end.
  Proof. induction l as [|m l IH]; intros v; [cbn; destruct (String.eqb n ""); reflexivity|]. cbn [fold_left]. rewrite IH. destruct (String.eqb n "") eqn:E; destruct m; cbn; rewrite ?E; try reflexivity; destruct (last_of warning_in l); reflexivity. Qed.
  Lemma run_sub l : forall v, v_sub (RUN l v) = None <-> v_sub v = None /\ forall m, In m l -> ~ wants_sub m.
  Proof.
    induction l as [|m l IH]; [cbn; intuition|]. intros v. cbn [fold_left]. rewrite IH.
    assert (E : (forall m', In m' (m :: l) -> ~ wants_sub m') <-> ~ wants_sub m /\ forall m', In m' l -> ~ wants_sub m').
    { split; [intros K; split; [apply K; left; reflexivity|intros m' Hm; apply K; right; exact Hm]|intros [K1 K2] m' [<-|Hm]; auto]. }
    rewrite E. destruct m; cbn; try (destruct (String.eqb n "")); cbn; intuition discriminate.
  Qed.
  Lemma run_status l : forall v, su_status (subs (RUN l v)) = true <-> su_status (subs v) = true \/ In CStatus l.
  Proof. induction l as [|m l IH]; [cbn; intuition|]. intros v. cbn [fold_left]. rewrite IH. destruct m; cbn; try (destruct (String.eqb n "")); cbn; intuition congruence. Qed.
  Lemma run_scale l : forall v, su_scale (subs (RUN l v)) = match last_of scale_in l with Some s => Some s | None => su_scale (subs v) end.
  Proof. induction l as [|m l IH]; intros v; [reflexivity|]. cbn [fold_left]. rewrite IH. destruct m; cbn; try (destruct (String.eqb n "")); cbn; destruct (last_of scale_in l); reflexivity. Qed.
  Lemma run_columns l : forall v, v_columns (RUN l v) = v_columns v ++ columns_in l.
  Proof. induction l as [|m l IH]; intros v; [cbn; rewrite app_nil_r; reflexivity|]. cbn [fold_left]. rewrite IH. destruct m; cbn; try (destruct (String.eqb n "")); cbn; rewrite <- ?app_assoc; reflexivity. Qed.
  Lemma run_fields l : forall v, v_fields (RUN l v) = v_fields v ++ fields_in l.
  Proof. induction l as [|m l IH]; intros v; [cbn; rewrite app_nil_r; reflexivity|]. cbn [fold_left]. rewrite IH. destruct m; cbn; try (destruct (String.eqb n "")); cbn; rewrite <- ?app_assoc; reflexivity. Qed.
  Lemma run_vname l : forall v, v_name (RUN l v) = v_name v.
  Proof. induction l as [|m l IH]; intros v; [reflexivity|]. cbn [fold_left]. rewrite IH. apply vfun_name. Qed.
  Lemma run_vschema l : forall v, v_schema (RUN l v) = v_schema v.
  Proof. induction l as [|m l IH]; intros v; [reflexivity|]. cbn [fold_left]. rewrite IH. destruct m; cbn; try (destruct (String.eqb n "")); reflexivity. Qed.
End After.
Lemma fresh_spec n sch l : version_spec n sch l False (fold_left (fun v m => vfun n m v) l (fresh n sch)).
Proof.
  set (v := fresh n sch). pose proof (run_status n l v) as S1. pose proof (run_scale n l v) as S2. split.
  - rewrite run_vname. reflexivity.
  - rewrite run_vschema. reflexivity.
  - rewrite run_served. cbn. intuition.
  - rewrite run_storage. cbn. intuition discriminate.
  - rewrite run_deprecated. cbn. intuition discriminate.
  - rewrite run_warning. reflexivity.
  - rewrite run_sub. cbn. intuition.
  - intros s E. unfold subs at 1 in S1. rewrite E in S1. rewrite S1. cbn. intuition discriminate.
  - intros s E. unfold subs at 1 in S2. rewrite E in S2. rewrite S2. cbn. destruct (last_of scale_in l); reflexivity.
  - rewrite run_columns. reflexivity.
  - rewrite run_fields. reflexivity.
Qed.
Lemma stored_spec n sch l v : version_spec n sch l False v -> version_spec n sch l True (set_storage v true).
Proof. intros []. split; cbn; auto. intuition. Qed.
Lemma spec_iff n sch l (P Q : Prop) v : (P <-> Q) -> version_spec n sch l P v -> version_spec n sch l Q v.
Proof. intros E H. destruct H as [? ? ? K]. split; auto. rewrite K, E. reflexivity. Qed.
(** The specification leaves no choice *)
Lemma spec_unique n sch l P v v' : version_spec n sch l P v -> version_spec n sch l P v' -> v = v'.
Proof.
  intros H H'. destruct H as [vs_name0 vs_schema0 vs_served0 vs_storage0 vs_deprecated0 vs_warning0 vs_sub0 vs_status0 vs_scale0 vs_columns0 vs_fields0].
  destruct H' as [vs_name1 vs_schema1 vs_served1 vs_storage1 vs_deprecated1 vs_warning1 vs_sub1 vs_status1 vs_scale1 vs_columns1 vs_fields1]. assert (B : forall a b : bool, (a = true <-> b = true) -> a = b) by (intros [] [] K; intuition congruence).
  assert (Es : v_sub v = v_sub v').
  { destruct (v_sub v) as [s|], (v_sub v') as [s'|].
    - f_equal. specialize (vs_status0 s eq_refl). specialize (vs_status1 s' eq_refl). specialize (vs_scale0 s eq_refl). specialize (vs_scale1 s' eq_refl).
      destruct s, s'; cbn in *. f_equal; [apply B; tauto|congruence].
    - exfalso. destruct vs_sub1 as [K _]. destruct vs_sub0 as [_ K']. discriminate (K' (K eq_refl)).
    - exfalso. destruct vs_sub0 as [K _]. destruct vs_sub1 as [_ K']. discriminate (K' (K eq_refl)).
    - reflexivity. }
  destruct v, v'; cbn in *. f_equal; try congruence; apply B; tauto.
Qed.
