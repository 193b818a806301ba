(** * Proofs about NeedCRDFor: names, metadata, errors and orders. *)
From Coq Require Import List String Ascii Bool ZArith Permutation Sorted Lia.
From Verif Require Import GoLib GoLibFacts MapFacts SchemaModel CrdModel CrdSpec CrdProofs CrdProofs2.
Import ListNotations.
Open Scope nat_scope.
Open Scope string_scope.
Open Scope list_scope.

(** ** Folds over the steps *)
Lemma fold_astep l : forall m, fold_left (fun n (s : step) => astep (s_val s) n) l m = puts (flat_map (fun s => ann_pairs (s_val s)) l) m.
Proof. induction l as [|s l IH]; intros m; [reflexivity|]. cbn [fold_left flat_map]. rewrite IH, puts_app, astep_puts. reflexivity. Qed.
Lemma fold_lstep l : (forall s, In s l -> mpanic (s_val s) = false) -> forall m, fold_left (fun n (s : step) => lstep (s_val s) n) l m = puts (flat_map (fun s => lab_pairs (s_val s)) l) m.
Proof. induction l as [|s l IH]; intros NP m; [reflexivity|]. cbn [fold_left flat_map]. rewrite IH by (intros x Hx; apply NP; right; exact Hx). rewrite puts_app, lstep_puts by (apply NP; left; reflexivity). reflexivity. Qed.
Definition nrun (l : list step) (n : names) : names := fold_left (fun n s => nstep (s_val s) n) l n.
Lemma nrun_kind l : forall n, n_kind (nrun l n) = n_kind n /\ n_list_kind (nrun l n) = n_list_kind n.
Proof. induction l as [|s l IH]; intros n; [auto|]. cbn [nrun fold_left]. fold (nrun l (nstep (s_val s) n)). destruct (IH (nstep (s_val s) n)) as [-> ->]. destruct (s_val s); auto. Qed.
Lemma nrun_none l : (forall s r, In s l -> s_val s <> CResource r) -> forall n, nrun l n = n.
Proof.
  induction l as [|s l IH]; intros N n; [reflexivity|]. cbn [nrun fold_left]. fold (nrun l (nstep (s_val s) n)). rewrite IH by (intros x r Hx; apply N; right; exact Hx).
  destruct (s_val s) eqn:E; try reflexivity. exfalso. apply (N s r); [left; reflexivity|exact E].
Qed.
Lemma nstep_twice r n : nstep (CResource r) (nstep (CResource r) n) = nstep (CResource r) n.
Proof. cbn. destruct (String.eqb (r_path r) ""), (String.eqb (r_singular r) ""); reflexivity. Qed.
Lemma nrun_agree r l : (forall s r', In s l -> s_val s = CResource r' -> r' = r) -> (exists s, In s l /\ s_val s = CResource r) -> forall n, nrun l n = nstep (CResource r) n.
Proof.
  intros A E n. assert (K : forall l, (forall s r', In s l -> s_val s = CResource r' -> r' = r) -> nrun l (nstep (CResource r) n) = nstep (CResource r) n).
  { clear. intros l. induction l as [|s l IH]; intros A; [reflexivity|]. cbn [nrun fold_left]. fold (nrun l (nstep (s_val s) (nstep (CResource r) n))).
    assert (Es : nstep (s_val s) (nstep (CResource r) n) = nstep (CResource r) n).
    { destruct (s_val s) eqn:E; try reflexivity. rewrite (A s r0 (or_introl eq_refl) E). apply nstep_twice. }
    rewrite Es. apply IH. intros x r' Hx. apply A. right. exact Hx. }
  induction l as [|s l IH]; [destruct E as (s & [] & _)|]. cbn [nrun fold_left]. fold (nrun l (nstep (s_val s) n)).
  assert (A' : forall x r', In x l -> s_val x = CResource r' -> r' = r) by (intros x r' Hx; apply A; right; exact Hx).
  destruct (s_val s) eqn:Es; try (apply IH; [exact A'|]; destruct E as (x & [<-|Hx] & Ex); [congruence|exists x; auto]).
  rewrite (A s r0 (or_introl eq_refl) Es). apply K, A'.
Qed.
(** The last resource marker gives what has no default *)
Lemma nrun_last l : forall n, (exists s r, In s l /\ s_val s = CResource r) ->
  exists s r, In s l /\ s_val s = CResource r /\ n_short (nrun l n) = r_short r /\ n_categories (nrun l n) = r_categories r /\ n_scope (nrun l n) = (if String.eqb (r_scope r) "" then "Namespaced" else r_scope r).
Proof.
  induction l as [|s l IH] using rev_ind; intros n E; [destruct E as (s & r & [] & _)|]. unfold nrun. rewrite fold_left_app. fold (nrun l n). cbn [fold_left].
  destruct (s_val s) eqn:Es.
  6:{ exists s, r. split; [apply in_or_app; right; left; reflexivity|]. split; [exact Es|]. split; [reflexivity|]. split; reflexivity. }
  all: destruct (IH n) as (x & r' & Hx & K);
    [destruct E as (x & r' & Hx & Ex); exists x, r'; split; [|exact Ex]; apply in_app_or in Hx as [Hx|[<-|[]]]; [exact Hx|congruence]
    |exists x, r'; split; [apply in_or_app; left; exact Hx|exact K]].
Qed.
Lemma nrun_plural l : forall n, n_plural (nrun l n) = n_plural n \/ exists s r, In s l /\ s_val s = CResource r /\ r_path r = n_plural (nrun l n) /\ r_path r <> "".
Proof.
  induction l as [|s l IH] using rev_ind; intros n; [left; reflexivity|]. unfold nrun. rewrite fold_left_app. fold (nrun l n). cbn [fold_left].
  assert (K : n_plural (nstep (s_val s) (nrun l n)) = n_plural (nrun l n) \/ exists r, s_val s = CResource r /\ r_path r = n_plural (nstep (s_val s) (nrun l n)) /\ r_path r <> "").
  { destruct (s_val s); try (left; reflexivity). cbn. destruct (String.eqb_spec (r_path r) "") as [E|E]; [left; reflexivity|]. right. exists r. auto. }
  destruct K as [K|(r & K1 & K2)]; [|right; exists s, r; split; [apply in_or_app; right; left; reflexivity|auto]]. rewrite K.
  destruct (IH n) as [J|(x & r & Hx & J)]; [left; exact J|right]. exists x, r. split; [apply in_or_app; left; exact Hx|exact J].
Qed.

(** ** Errors of the markers *)
Lemma in_run_errs l : forall vs p e, In (p, e) (run_errs l vs) <-> exists pre n m post, l = pre ++ (p, n, m) :: post /\ e = EMarker m /\ mbad n m (vrun pre vs) = true.
Proof.
  induction l as [|[[q n] m] l IH]; intros vs p e.
  - split; [intros []|]. intros (pre & n & m & post & E & _). destruct pre; discriminate E.
  - cbn [run_errs]. change (s_ver (q, n, m)) with n. change (s_val (q, n, m)) with m. cbn [fst]. rewrite in_app_iff, IH. split.
    + intros [K|(pre & n' & m' & post & El & Ee & B)].
      * destruct (mbad n m vs) eqn:B; [|destruct K]. destruct K as [K|[]]. injection K as -> <-. exists [], n, m, l. auto.
      * exists ((q, n, m) :: pre), n', m', post. split; [cbn; rewrite El; reflexivity|]. split; [exact Ee|exact B].
    + intros (pre & n' & m' & post & El & Ee & B). destruct pre as [|x pre].
      * injection El as -> -> -> ->. left. cbn in B. rewrite B. left. rewrite Ee. reflexivity.
      * injection El as <- El. right. exists pre, n', m', post. split; [exact El|]. split; [exact Ee|exact B].
Qed.
Lemma mbad_needs n m vs : needs_version m -> mbad n m vs = true <-> ~ In n (map v_name vs).
Proof.
  intros H. rewrite <- (on_first_some n (fun v => v)). destruct m; destruct H; cbn; destruct (on_first n _ vs) as [x|]; split; try discriminate; try reflexivity; try (intros _ (y & K); discriminate K); intros K; destruct K; eauto.
Qed.
Lemma mbad_other n m vs : ~ needs_version m -> mbad n m vs = true <-> bad_marker n m.
Proof.
  intros H. unfold bad_marker. destruct m; cbn in *; try tauto; try (split; [discriminate|intros [[K _]|(a & l & K & _)]; discriminate]).
  - split; [intros K; apply String.eqb_eq in K; auto|]. intros [[_ ->]|(a & l & K & _)]; [reflexivity|discriminate].
  - rewrite <- not_false_iff_true, annotations_good. split.
    + intros K. right. eauto.
    + intros [[K _]|(a & l & E & K)]; [discriminate|]. injection E as -> ->. exact K.
Qed.

Section Need.
  Variable pluralize lower : string -> string.
  Variable gv_order : list (string * (string * string)) -> list (string * (string * string)).
  Variable m_order : cmarkers -> cmarkers.
  Variable v_sort : list version -> list version.
  Variable group_versions : list (string * (string * string)).
  Variable types : string * string -> option cmarkers.
  Variable schema_for : string * string -> schema.
  Hypothesis Hg : is_order gv_order.
  Hypothesis Hm : is_order m_order.
  Hypothesis Hv : sorts_by (fun a b => str_ltb (v_name a) (v_name b)) v_sort.
  Variables group kind : string.
  Notation defines := (defines group_versions types group kind).
  Notation carries := (carries group_versions types group kind).
  Notation skipped := (skipped group_versions types group kind).
  Notation kept := (kept group_versions types group kind).
  Notation packages := (packages_of gv_order group_versions group).
  Notation need := (need_crd pluralize lower gv_order m_order v_sort group_versions types schema_for group kind).
  Notation steps := (steps m_order types kind packages).
  Notation start := (start gv_order group_versions types schema_for group kind pluralize lower).
  Notation ended := (ended gv_order m_order group_versions types schema_for group kind pluralize lower).
  Notation final := (vrun steps (versions_of types schema_for kind packages)).
  Notation in_steps := (in_steps gv_order m_order group_versions types Hg Hm group kind).
  Notation need_run := (need_run gv_order m_order v_sort group_versions types schema_for group kind pluralize lower).

  (** *** Panics *)
  Lemma panics : need = CPanic <-> exists p n a l, carries p n (CMetadata a l) /\ Forall well_formed a /\ ~ Forall well_formed l.
  Proof.
    rewrite need_run. destruct (existsb (fun s => mpanic (s_val s)) steps) eqn:E.
    - split; [intros _|reflexivity]. apply existsb_exists in E as ([[p n] m] & Hs & K). apply in_steps in Hs. change (s_val (p, n, m)) with m in K. apply mpanic_iff in K as (a & l & -> & K). exists p, n, a, l. auto.
    - split.
      + destruct final; discriminate.
      + intros (p & n & a & l & C & K). exfalso. apply in_steps in C. assert (X : existsb (fun s => mpanic (s_val s)) steps = true); [|congruence]. apply existsb_exists. eexists. split; [exact C|]. apply mpanic_iff. exists a, l. auto.
  Qed.
  Definition calm : Prop := forall p n m, carries p n m -> mpanic m = false.
  Lemma done_calm o es : need = CDone o es -> existsb (fun s => mpanic (s_val s)) steps = false /\ calm.
  Proof.
    rewrite need_run. destruct (existsb (fun s => mpanic (s_val s)) steps) eqn:E; [discriminate|]. intros _. split; [reflexivity|]. intros p n m C. apply in_steps in C.
    destruct (mpanic m) eqn:K; [|reflexivity]. exfalso. assert (X : existsb (fun s => mpanic (s_val s)) steps = true); [|congruence]. apply existsb_exists. eexists. split; [exact C|exact K].
  Qed.
  (** *** The parts of the result *)
  Lemma done_some c es : need = CDone (Some c) es ->
    final <> [] /\ c_versions c = default_storage (v_sort final) /\ c_names c = nrun steps (c_names start) /\ c_name c = (n_plural (c_names c) ++ "." ++ group)%string /\ c_group c = group /\
    c_annotations c = puts (flat_map (fun s => ann_pairs (s_val s)) steps) [] /\ c_labels c = puts (flat_map (fun s => lab_pairs (s_val s)) steps) [] /\
    exists first, es = run_errs steps (c_versions start) ++ (if existsb v_storage (c_versions c) then [] else [(first, ENoStorage)]) ++ (if existsb v_served (c_versions c) then [] else [(first, ENotServed)]).
  Proof.
    intros H. destruct (done_calm _ _ H) as [NP _]. rewrite need_run, NP in H. cbv zeta in H. destruct final as [|v vs] eqn:F; [discriminate|].
    rewrite <- F in *. assert (NE : final <> []) by (rewrite F; discriminate). split; [exact NE|].
    injection H as <- <-. cbn [c_versions set_versions c_names c_name c_group c_annotations c_labels set_cname].
    split; [reflexivity|]. unfold CrdProofs2.ended. rewrite run_names. fold (nrun steps (c_names start)). split; [reflexivity|]. split; [reflexivity|]. split; [rewrite (proj1 (run_same steps start)); reflexivity|].
    split; [rewrite run_annotations; apply fold_astep|]. split.
    { rewrite run_labels. apply fold_lstep. intros s Hs. destruct (mpanic (s_val s)) eqn:K; [|reflexivity]. exfalso. assert (X : existsb (fun s => mpanic (s_val s)) steps = true); [|congruence]. apply existsb_exists. eauto. }
    eexists. reflexivity.
  Qed.
  Lemma done_none es : need = CDone None es -> final = [] /\ es = run_errs steps (c_versions start).
  Proof.
    intros H. destruct (done_calm _ _ H) as [NP _]. rewrite need_run, NP in H. cbv zeta in H. destruct final as [|v vs] eqn:F; [|discriminate]. injection H as <-. auto.
  Qed.
  Lemma in_ann k v : In (k, v) (flat_map (fun s => ann_pairs (s_val s)) steps) <-> exists p n m, carries p n m /\ annotates m (k, v).
  Proof.
    rewrite in_flat_map. split.
    - intros ([[p n] m] & Hs & K). exists p, n, m. split; [apply in_steps, Hs|apply ann_pairs_in, K].
    - intros (p & n & m & C & K). exists (p, n, m). split; [apply in_steps, C|apply ann_pairs_in, K].
  Qed.
  Lemma in_lab k v : calm -> In (k, v) (flat_map (fun s => lab_pairs (s_val s)) steps) <-> exists p n m, carries p n m /\ labels m (k, v).
  Proof.
    intros Ca. rewrite in_flat_map. split.
    - intros ([[p n] m] & Hs & K). apply in_steps in Hs. exists p, n, m. split; [exact Hs|]. apply lab_pairs_in; [apply (Ca p n), Hs|exact K].
    - intros (p & n & m & C & K). exists (p, n, m). split; [apply in_steps, C|]. apply lab_pairs_in; [apply (Ca p n), C|exact K].
  Qed.
  Lemma puts_exact l k v : (forall a b b', In (a, b) l -> In (a, b') l -> b = b') -> mget String.eqb (puts l []) k = Some v <-> In (k, v) l.
  Proof.
    intros U. split.
    - intros H. apply puts_get in H as [H|H]; [exact H|discriminate].
    - intros H. destruct (mget String.eqb (puts l []) k) as [w|] eqn:E.
      + f_equal. apply puts_get in E as [E|E]; [|discriminate]. apply (U k); assumption.
      + exfalso. apply (puts_has l [] k) in E; [exact E|]. left. apply (in_map fst) in H. exact H.
  Qed.
  (** *** Errors *)
  Lemma start_has p n m : carries p n m -> In n (map v_name (c_versions start)).
  Proof. intros (ms & name & vs & D & _). change (c_versions start) with (versions_of types schema_for kind packages). apply (start_names _ _ _ _ Hg). eauto. Qed.
  Lemma skip_step p n m : In (p, n, m) steps -> skips (p, n, m) = true -> skipped n.
  Proof.
    intros Hs K. unfold skips in K. change (s_val (p, n, m)) with m in K. change (s_ver (p, n, m)) with n in K. apply andb_true_iff in K as [K1 K2]. destruct m; try discriminate. apply negb_true_iff, String.eqb_neq in K2. split; [exact K2|]. exists p. apply in_steps, Hs.
  Qed.
  Lemma marker_errors o es p m : need = CDone o es -> In (p, EMarker m) es -> exists n, carries p n m /\ (bad_marker n m \/ (needs_version m /\ skipped n)).
  Proof.
    intros H K. assert (K' : In (p, EMarker m) (run_errs steps (c_versions start))).
    { destruct o as [c|].
      - destruct (done_some _ _ H) as (_ & _ & _ & _ & _ & _ & _ & first & ->). apply in_app_or in K as [K|K]; [exact K|]. apply in_app_or in K as [K|K]; [destruct (existsb v_storage (c_versions c))|destruct (existsb v_served (c_versions c))]; try destruct K as [K|[]]; try discriminate; destruct K.
      - destruct (done_none _ H) as (_ & ->). exact K. }
    apply in_run_errs in K' as (pre & n & m' & post & El & Ee & B). injection Ee as <-. assert (C : carries p n m) by (apply in_steps; rewrite El; apply in_or_app; right; left; reflexivity).
    exists n. split; [exact C|]. assert (Dn : needs_version m \/ ~ needs_version m) by (destruct m; cbn; tauto). destruct Dn as [Dn|Dn].
    - right. split; [exact Dn|]. apply (mbad_needs _ _ _ Dn) in B. rewrite vrun_names, filter_In, negb_true_iff in B. pose proof (start_has _ _ _ C) as St.
      destruct (existsb (fun s => skips s && String.eqb n (s_ver s)) pre) eqn:E; [|exfalso; apply B; auto]. apply existsb_exists in E as ([[q n'] m'] & Hs & E). apply andb_true_iff in E as [E1 E2]. change (s_ver (q, n', m')) with n' in E2. apply String.eqb_eq in E2. subst n'.
      apply (skip_step q n m'); [|exact E1]. rewrite El. apply in_or_app. left. exact Hs.
    - left. apply (mbad_other _ _ _ Dn) in B. exact B.
  Qed.
  Lemma marker_errors_made o es p n m : need = CDone o es -> carries p n m -> bad_marker n m -> In (p, EMarker m) es.
  Proof.
    intros H C B. assert (K : In (p, EMarker m) (run_errs steps (c_versions start))).
    { apply in_steps in C. apply in_split in C as (pre & post & El). apply in_run_errs. exists pre, n, m, post. split; [exact El|]. split; [reflexivity|]. apply mbad_other; [|exact B]. destruct B as [[-> _]|(a & l & -> & _)]; cbn; tauto. }
    destruct o as [c|]; [destruct (done_some _ _ H) as (_ & _ & _ & _ & _ & _ & _ & first & ->)|destruct (done_none _ H) as (_ & ->); exact K]. apply in_or_app. left. exact K.
  Qed.
  Lemma check_errors o es e : need = CDone o es -> (forall m, e <> EMarker m) ->
    In e (map snd es) <-> exists c, o = Some c /\ ((e = ENoStorage /\ existsb v_storage (c_versions c) = false) \/ (e = ENotServed /\ existsb v_served (c_versions c) = false)).
  Proof.
    intros H Ne. assert (R : ~ In e (map snd (run_errs steps (c_versions start)))).
    { intros K. apply in_map_iff in K as ([p e'] & <- & K). apply in_run_errs in K as (_ & _ & m & _ & _ & E & _). apply (Ne m E). }
    destruct o as [c|].
    - destruct (done_some _ _ H) as (_ & _ & _ & _ & _ & _ & _ & first & ->). rewrite !map_app, !in_app_iff. split.
      + intros [K|[K|K]]; [contradiction| |]; exists c; (split; [reflexivity|]); [left; destruct (existsb v_storage (c_versions c)) eqn:E|right; destruct (existsb v_served (c_versions c)) eqn:E]; cbn in K; destruct K as [K|[]] || destruct K; auto.
      + intros (c' & E & K). injection E as <-. right. destruct K as [[-> ->]|[-> ->]]; [left|right]; left; reflexivity.
    - destruct (done_none _ H) as (_ & ->). split; [contradiction|]. intros (c & [=] & _).
  Qed.
End Need.
