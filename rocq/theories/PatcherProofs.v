(** * The schema patcher as a whole: proofs for C63 *)
From Coq Require Import List String Ascii Bool Arith Lia Permutation.
From Verif Require Import GoLib GoLibFacts MapFacts SchemaModel CrdModel YamlModel YamlSpec YamlProofs YamlProofs2 YamlProofs3 YamlProps EmitModel PatcherModel PatcherSpec.
Import ListNotations.
Open Scope string_scope.
Open Scope list_scope.

(** ** Names *)
Lemma extension_suffix s : exists stem, s = (stem ++ extension s)%string.
Proof.
  induction s as [|c s (stem & IH)]; [exists ""; reflexivity|]. cbn [extension]. destruct (extension s) as [|a e] eqn:E.
  - destruct (Ascii.eqb c "."); [exists ""; reflexivity|]. exists (String c s). clear. induction s as [|x s IH]; [reflexivity|]. cbn in *. congruence.
  - exists (String c stem). cbn. rewrite IH at 1. reflexivity.
Qed.
Lemma extension_yaml s : extension s = ".yaml" <-> yaml_name s.
Proof.
  split.
  - intros E. destruct (extension_suffix s) as (stem & H). rewrite E in H. exists stem. exact H.
  - intros (stem & ->). induction stem as [|c stem IH]; [reflexivity|]. cbn [append extension]. rewrite IH. reflexivity.
Qed.

Section Reading.
  Variable read : string -> option string.
  Variable type_meta : string -> option (string * string).
  Variable crd_ish : string -> option (gk * list string).
  Variable tree : string -> option node.
  Notation read_crds := (read_crds read type_meta crd_ish tree).
  Notation manifest := (manifest read type_meta crd_ish tree).
  Notation unsupported := (unsupported read type_meta).

  (** One entry: skipped, an error, or a manifest *)
  Lemma read_entry name is_dir es :
    (read_crds ((name, is_dir) :: es) = read_crds es /\ (is_dir = false -> (forall g vs d, ~ manifest name g vs d) /\ ~ unsupported name)) \/
    (read_crds ((name, is_dir) :: es) = None /\ is_dir = false /\ unsupported name) \/
    (exists g vs d, is_dir = false /\ manifest name g vs d /\ read_crds ((name, is_dir) :: es) = match read_crds es with Some l => Some ((name, (g, vs, d)) :: l) | None => None end).
  Proof.
    cbn [PatcherModel.read_crds]. destruct is_dir; cbn [orb]; [left; split; [reflexivity|discriminate]|].
    destruct (String.eqb_spec (extension name) ".yaml") as [Y|Y]; cbn [negb].
    2:{ left. split; [reflexivity|]. intros _. split; [intros g vs d (M & _)|intros (M & _)]; apply extension_yaml in M; contradiction. }
    apply extension_yaml in Y. destruct (read name) as [raw|] eqn:R; [|right; left; split; [reflexivity|]; split; [reflexivity|]; split; [exact Y|left; exact R]].
    destruct (type_meta raw) as [[api k]|] eqn:Tm.
    2:{ left. split; [reflexivity|]. intros _. unfold PatcherSpec.manifest, PatcherSpec.unsupported, says_crd. split; [intros g vs d (_ & r & E & (_ & S) & _)|intros (_ & [E|(r & a & E & (_ & S) & _)])]; congruence. }
    destruct (String.eqb_spec api "") as [Ea|Ea]; cbn [orb].
    { left. split; [reflexivity|]. intros _. unfold PatcherSpec.manifest, PatcherSpec.unsupported, says_crd. split; [intros g vs d (_ & r & E & (S & S') & _)|intros (_ & [E|(r & a & E & (S & S') & _)])]; congruence. }
    destruct (String.eqb_spec k "CustomResourceDefinition") as [Ek|Ek]; cbn [negb].
    2:{ left. split; [reflexivity|]. intros _. unfold PatcherSpec.manifest, PatcherSpec.unsupported, says_crd. split; [intros g vs d (_ & r & E & (_ & S) & _)|intros (_ & [E|(r & a & E & (_ & S) & _)])]; congruence. }
    subst k. destruct (String.eqb_spec api "apiextensions.k8s.io/v1") as [Ev|Ev]; cbn [negb].
    2:{ right; left. split; [reflexivity|]. split; [reflexivity|]. split; [exact Y|]. right. exists raw, api. repeat split; auto. }
    subst api.
    assert (Nu : ~ unsupported name) by (intros (_ & [E|(r & a & E & (_ & S) & N)]); [congruence|]; rewrite R in E; injection E as <-; rewrite Tm in S; injection S as <-; apply N; reflexivity).
    destruct (crd_ish raw) as [[g vs]|] eqn:C.
    2:{ left. split; [reflexivity|]. intros _. split; [|exact Nu]. intros g vs d (_ & r & E & _ & S & _). congruence. }
    destruct (tree raw) as [d|] eqn:D.
    2:{ left. split; [reflexivity|]. intros _. split; [|exact Nu]. intros g' vs' d (_ & r & E & _ & _ & S). congruence. }
    right; right. exists g, vs, d. split; [reflexivity|]. split; [|reflexivity]. split; [exact Y|]. exists raw. repeat split; auto; discriminate.
  Qed.
  Lemma manifest_det name g vs d g' vs' d' : manifest name g vs d -> manifest name g' vs' d' -> g = g' /\ vs = vs' /\ d = d'.
  Proof. intros (_ & r & R & _ & C & D) (_ & r' & R' & _ & C' & D'). assert (r = r') by congruence. subst r'. rewrite C in C'. rewrite D in D'. injection C' as <- <-. injection D' as <-. auto. Qed.
  Lemma read_crds_some es files : read_crds es = Some files -> NoDup (map fst es) ->
    NoDup (map fst files) /\ (forall n, In n (map fst files) -> In n (map fst es)) /\
    (forall name g vs d, In (name, (g, vs, d)) files <-> In (name, false) es /\ manifest name g vs d) /\ (forall name, In (name, false) es -> ~ unsupported name).
  Proof.
    revert files. induction es as [|[name dir] es IH]; intros files R N.
    { injection R as <-. split; [constructor|]. split; [intros n []|]. split; [intros n g vs d; cbn; tauto|intros n []]. }
    inversion N as [|? ? N1 N2]; subst. cbn in N1. destruct (read_entry name dir es) as [(E & K)|[(E & _)|(g & vs & d & -> & M & E)]]; [| congruence |].
    - rewrite E in R. destruct (IH _ R N2) as (I1 & I2 & I3 & I4). split; [exact I1|]. split; [intros n H; right; apply I2, H|]. split.
      + intros n g vs d. rewrite I3. split; [intros (A & B); split; [right; exact A|exact B]|]. intros ([[= -> ->]|A] & B); [|auto]. exfalso. exact (proj1 (K eq_refl) _ _ _ B).
      + intros n [[= -> ->]|A]; [exact (proj2 (K eq_refl))|apply I4, A].
    - rewrite E in R. destruct (read_crds es) as [l|]; [|discriminate]. injection R as <-. destruct (IH _ eq_refl N2) as (I1 & I2 & I3 & I4). split; [|split; [|split]].
      + cbn. constructor; [|exact I1]. intros H. apply N1, I2, H.
      + cbn. intros n [<-|H]; [left; reflexivity|right; apply I2, H].
      + intros n g' vs' d'. cbn [In]. rewrite I3. split.
        * intros [[= <- <- <- <-]|(A & B)]; [split; [left; reflexivity|exact M]|split; [right; exact A|exact B]].
        * intros ([[= <-]|A] & B); [left|right; auto]. destruct (manifest_det _ _ _ _ _ _ _ M B) as (-> & -> & ->). reflexivity.
      + intros n [[= <-]|A]; [|apply I4, A]. intros (_ & [Rn|(r & a & Rr & (_ & S) & Na)]); destruct M as (_ & r' & Rr' & (_ & S') & _); [congruence|]. assert (r = r') by congruence. subst r'. rewrite S in S'. injection S' as ->. apply Na; reflexivity.
  Qed.
  Lemma read_crds_none es : read_crds es = None <-> exists name, In (name, false) es /\ unsupported name.
  Proof.
    induction es as [|[name dir] es IH]; [split; [discriminate|intros (n & [] & _)]|].
    destruct (read_entry name dir es) as [(E & K)|[(E & -> & U)|(g & vs & d & -> & M & E)]].
    - rewrite E, IH. split; intros (n & A & U); [exists n; split; [right; exact A|exact U]|]. destruct A as [[= -> ->]|A]; [destruct (proj2 (K eq_refl) U)|exists n; auto].
    - rewrite E. split; [|reflexivity]. intros _. exists name. split; [left; reflexivity|exact U].
    - rewrite E. split.
      + destruct (read_crds es); [discriminate|]. intros _. destruct (proj1 IH eq_refl) as (n & A & U). exists n. split; [right; exact A|exact U].
      + intros (n & [[= <-]|A] & U).
        * destruct U as (_ & [Rn|(r & a & Rr & (_ & S) & Na)]); destruct M as (_ & r' & Rr' & (_ & S') & _); [congruence|]. assert (r = r') by congruence. subst r'. rewrite S in S'. injection S' as ->. exfalso. apply Na; reflexivity.
        * rewrite (proj2 IH); [reflexivity|]. exists n. auto.
  Qed.
End Reading.

(** ** Patching, with the documents *)
Section Docs.
  Variable T : Type.
  Variable to_yaml : T -> option node.
  Variable short_tag : node -> string.
  Variable schema_of : string -> string -> T.
  Notation set_versioned := (set_versioned T to_yaml short_tag).
  Notation generate := (generate T to_yaml short_tag schema_of).
  Notation schema_for := (schema_for T schema_of).
  Notation collect := (collect T schema_of).
  Notation touch := (touch T schema_of).
  Notation one := (one T to_yaml short_tag).

  (** What becomes of the documents of a set with the new schemata [new] *)
  Definition docs_result (new : list (string * T)) (docs docs' : list (string * node)) : Prop :=
    (new = [] /\ docs' = docs) \/ (new <> [] /\ Forall2 (fun f f' => fst f' = fst f /\ set_versioned new (snd f) = Done (snd f')) docs docs').
  Lemma one_done s o : one s = Done o -> docs_result (cs_new T s) (cs_docs T s) o.
  Proof.
    unfold YamlProofs3.one, new_of, docs_in. destruct (cs_new T s) eqn:E; [intros [= <-]; left; auto|]. intros H. right. split; [discriminate|]. apply patch_docs_done in H. exact H.
  Qed.
  Lemma touch_new kinds gvs ord e : is_order ord -> NoDup (map snd gvs) -> cs_new T (snd e) = [] ->
    cs_docs T (snd (touch kinds ord gvs e)) = cs_docs T (snd e) /\
    forall v t, mget String.eqb (cs_new T (snd (touch kinds ord gvs e))) v = Some t <-> schema_for kinds gvs (fst e) (cs_versions T (snd e)) v t.
  Proof.
    intros O1 Ng Hn. unfold YamlProofs3.touch. cbn [snd]. destruct (existsb (gk_eqb (fst e)) kinds) eqn:Ex.
    - apply existsb_exists in Ex as (x & Hx & Ex). apply gk_eqb_eq in Ex. subst x.
      assert (Ng' : NoDup (map snd (ord gvs))) by exact (Permutation_NoDup (Permutation_map snd (Permutation_sym (O1 gvs))) Ng).
      destruct (collect_spec T schema_of (fst e) (ord gvs) (snd e) Ng') as (A1 & A2 & A3). split; [exact A2|]. intros v t. unfold new_of in A3. rewrite A3. unfold hit, vers_of, YamlSpec.schema_for. rewrite Hn. cbn [mget]. split.
      + intros [(G1 & p & G2 & G3)|[G _]]; [|discriminate]. split; [exact Hx|]. split; [exact G1|]. exists p. split; [exact (Permutation_in _ (O1 gvs) G2)|exact G3].
      + intros (_ & G1 & p & G2 & G3). left. split; [exact G1|]. exists p. split; [exact (Permutation_in _ (Permutation_sym (O1 gvs)) G2)|exact G3].
    - split; [reflexivity|]. intros v t. rewrite Hn. split; [discriminate|]. intros (Hk & _). exfalso.
      assert (existsb (gk_eqb (fst e)) kinds = true) by (apply existsb_exists; exists (fst e); split; [exact Hk|apply gk_eqb_eq; reflexivity]). congruence.
  Qed.
  Lemma generate_docs ord ord_s kinds gvs sets out :
    is_order ord -> is_order ord_s -> NoDup kinds -> NoDup (map fst sets) -> NoDup (map snd gvs) -> (forall e, In e sets -> cs_new T (snd e) = []) ->
    generate ord ord_s kinds gvs sets = Done out ->
    exists outs, Permutation out (List.concat outs) /\
      Forall2 (fun e o => exists new, (forall v t, mget String.eqb new v = Some t <-> schema_for kinds gvs (fst e) (cs_versions T (snd e)) v t) /\ docs_result new (cs_docs T (snd e)) o) sets outs.
  Proof.
    intros O1 O2 Nk Ns Ng Hs. unfold YamlModel.generate. rewrite collect_all_eq by assumption. intros H. apply patch_sets_done in H as (outs & H & ->).
    destruct (forall2_perm _ _ _ _ _ (O2 _) _ H) as (o1 & H1 & P1). exists o1. split; [apply concat_perm, P1|]. clear H P1 outs Ns.
    revert o1 H1. induction sets as [|e sets IH]; intros o1 H1; inversion H1 as [|? o ? o1' E H2]; subst; constructor; [|apply IH; [intros; apply Hs; right; assumption|assumption]].
    destruct (touch_new kinds gvs ord e O1 Ng (Hs e (or_introl eq_refl))) as (D & M). exists (cs_new T (snd (touch kinds ord gvs e))). split; [exact M|]. rewrite <- D. apply one_done, E.
  Qed.
End Docs.

(** ** Loading, with other documents under the same names *)
Section Redo.
  Variable T : Type.
  Variable upd : string -> node -> node.
  Notation file := (string * (gk * list string * node))%type.
  Definition redo_file (f : file) : file := (fst f, (fst (snd f), upd (fst f) (snd (snd f)))).
  Definition redo_docs (l : list (string * node)) : list (string * node) := map (fun f => (fst f, upd (fst f) (snd f))) l.
  Definition redo_set (e : gk * crdset T) : gk * crdset T := (fst e, mkSet T (cs_versions T (snd e)) (cs_new T (snd e)) (redo_docs (cs_docs T (snd e)))).
  Lemma redo_mget sets g : mget gk_eqb (map redo_set sets) g = match mget gk_eqb sets g with Some s => Some (snd (redo_set (g, s))) | None => None end.
  Proof. induction sets as [|[g' s'] sets IH]; [reflexivity|]. cbn. destruct (gk_eqb g g'); [reflexivity|exact IH]. Qed.
  Lemma redo_mset sets g s : map redo_set (mset gk_eqb sets g s) = mset gk_eqb (map redo_set sets) g (snd (redo_set (g, s))).
  Proof. induction sets as [|[g' s'] sets IH]; [reflexivity|]. cbn. destruct (gk_eqb g g'); [reflexivity|]. cbn. rewrite IH. reflexivity. Qed.
  Lemma redo_load files : load T (map redo_file files) = map redo_set (load T files).
  Proof.
    change (load T) with (fun fs => fold_left (load_step T) fs []). cbn beta.
    assert (G : forall fs sets, fold_left (load_step T) (map redo_file fs) (map redo_set sets) = map redo_set (fold_left (load_step T) fs sets)).
    { induction fs as [|[name [[g vers] doc]] fs IH]; intros sets; [reflexivity|]. cbn [map fold_left]. rewrite <- IH. f_equal.
      unfold redo_file, load_step. cbn [fst snd]. rewrite redo_mset. f_equal. rewrite redo_mget. unfold redo_set. cbn [fst snd cs_versions cs_new cs_docs]. unfold redo_docs. rewrite map_app. cbn [map fst snd].
      destruct (mget gk_eqb sets g) as [s|]; reflexivity. }
    apply (G files []).
  Qed.
End Redo.

Section Again.
  Variable T : Type.
  Variable to_yaml : T -> option node.
  Variable short_tag : node -> string.
  Variable schema_of : string -> string -> T.
  Notation set_versioned := (set_versioned T to_yaml short_tag).
  Notation generate := (generate T to_yaml short_tag schema_of).
  Notation touch := (touch T schema_of).
  Notation one := (one T to_yaml short_tag).
  Notation docs_result := (docs_result T to_yaml short_tag).

  Lemma collect_docs g gvs s docs : collect T schema_of g gvs (mkSet T (cs_versions T s) (cs_new T s) docs)
    = mkSet T (cs_versions T (collect T schema_of g gvs s)) (cs_new T (collect T schema_of g gvs s)) docs.
  Proof.
    unfold collect. revert s. induction gvs as [|p gvs IH]; intros s; [reflexivity|]. cbn [fold_left cs_versions]. destruct (String.eqb (fst (snd p)) (fst g) && mem_str (snd (snd p)) (cs_versions T s)).
    - rewrite <- IH. reflexivity.
    - apply IH.
  Qed.
  Lemma touch_redo upd kinds ord gvs e : touch kinds ord gvs (redo_set T upd e) = redo_set T upd (touch kinds ord gvs e).
  Proof.
    unfold YamlProofs3.touch, redo_set. cbn [fst snd]. destruct (existsb (gk_eqb (fst e)) kinds); [|reflexivity]. rewrite collect_docs. f_equal. f_equal.
    f_equal. symmetry. unfold collect. generalize (snd e). induction (ord gvs) as [|p l IH]; intros s; [reflexivity|]. cbn [fold_left]. destruct (_ && _); [rewrite IH; reflexivity|apply IH].
  Qed.
  Lemma patch_docs_all new docs out : Forall2 (fun f f' => fst f' = fst f /\ set_versioned new (snd f) = Done (snd f')) docs out -> patch_docs T to_yaml short_tag new docs = Done out.
  Proof.
    induction 1 as [|[n d] [n' d'] docs out (A & B) _ IH]; [reflexivity|]. cbn in *. subst n'. rewrite B, IH. reflexivity.
  Qed.
  (** Patching what was written writes it again. *)
  Lemma generate_again ord ord_s kinds gvs sets out upd :
    is_order ord -> is_order ord_s -> NoDup kinds -> NoDup (map fst sets) -> NoDup (map snd gvs) -> (forall e, In e sets -> cs_new T (snd e) = []) ->
    (forall e f, In e sets -> In f (cs_docs T (snd e)) -> paired (snd f) /\ unique_keys (snd f)) ->
    generate ord ord_s kinds gvs sets = Done out -> (forall f d, In f out -> upd (fst f) d = snd f) ->
    exists out', generate ord ord_s kinds gvs (map (redo_set T upd) sets) = Done out' /\ Permutation out out'.
  Proof.
    intros O1 O2 Nk Ns Ng Hn Hp H U. unfold YamlModel.generate in *. rewrite collect_all_eq in H by assumption.
    assert (Ns' : NoDup (map fst (map (redo_set T upd) sets))) by (rewrite map_map; exact Ns). rewrite collect_all_eq by assumption.
    apply patch_sets_done in H as (outs & H & ->). destruct (forall2_perm _ _ _ _ _ (O2 _) _ H) as (o1 & H1 & P1).
    assert (U1 : forall o f d, In o o1 -> In f o -> upd (fst f) d = snd f).
    { intros o f d Io If. apply U. apply in_concat. exists o. split; [apply (Permutation_in _ (Permutation_sym P1)); exact Io|exact If]. }
    assert (H2 : Forall2 (fun gs o => one (snd gs) = Done o) (map (touch kinds ord gvs) (map (redo_set T upd) sets)) o1).
    { rewrite map_map. clear -H1 Hp Hn U1 O1 Ng. revert o1 H1 U1. induction sets as [|e sets IH]; intros o1 H1 U1; inversion H1 as [|? o ? o1' E F]; subst; constructor.
      - rewrite touch_redo. pose proof (touch_new T schema_of kinds gvs ord e O1 Ng (Hn e (or_introl eq_refl))) as (D & _).
        change (snd (redo_set T upd (touch kinds ord gvs e))) with (snd (redo_set T upd (("", ""), snd (touch kinds ord gvs e)))).
        assert (R : redo_docs upd (cs_docs T (snd (touch kinds ord gvs e))) = o).
        { pose proof (one_done _ _ _ _ _ E) as Dr. unfold redo_docs. destruct Dr as [(_ & Eo)|(_ & Fo)].
          - rewrite <- Eo. rewrite <- (map_id o) at 2. apply map_ext_in. intros f If. destruct f as [n d]. cbn. f_equal. exact (U1 o (n, d) d (or_introl eq_refl) If).
          - assert (Uo : forall f d, In f o -> upd (fst f) d = snd f) by (intros f d If; exact (U1 o f d (or_introl eq_refl) If)). clear -Fo Uo.
            induction Fo as [|[n d] [n' d'] docs out (A & B) F IH]; [reflexivity|]. cbn in *. subst n'. rewrite IH by (intros f x If; apply Uo; right; exact If). pose proof (Uo (n, d') d (or_introl eq_refl)) as Ud. cbn in Ud. rewrite Ud. reflexivity. }
        pose proof (one_done _ _ _ _ _ E) as Dr. unfold YamlProofs3.one, new_of, docs_in. cbn [redo_set snd cs_new cs_docs]. rewrite R. destruct Dr as [(En & _)|(En & Fo)]; [rewrite En; reflexivity|].
        destruct (cs_new T (snd (touch kinds ord gvs e))) as [|x l] eqn:Ex; [contradiction|]. rewrite <- Ex in *. apply patch_docs_all.
        assert (Pd : forall f, In f (cs_docs T (snd (touch kinds ord gvs e))) -> paired (snd f) /\ unique_keys (snd f)) by (rewrite D; intros f If; apply (Hp e f); [left; reflexivity|exact If]).
        clear -Fo Pd. induction Fo as [|[n d] [n' d'] docs out (A & B) F IH]; [constructor|].
        constructor; [|apply IH; intros; apply Pd; right; assumption]. split; [reflexivity|]. cbn in *. destruct (Pd _ (or_introl eq_refl)) as (P1 & P2). cbn in P1, P2. eapply patch_idempotent; eauto.
      - apply IH; auto; [intros; apply Hn; right; assumption|intros e0 f I0 I1; apply (Hp e0 f); [right; exact I0|exact I1]|intros o0 f d I0 If; apply (U1 o0); [right; exact I0|exact If]]. }
    destruct (forall2_perm _ _ _ _ _ (Permutation_sym (O2 _)) _ H2) as (o2 & H3 & P2). exists (List.concat o2). split; [apply patch_sets_done; eauto|].
    apply concat_perm. etransitivity; eauto.
  Qed.
End Again.
