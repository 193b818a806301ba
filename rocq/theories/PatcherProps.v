(** * C63: the schema patcher as a whole *)
From Coq Require Import List String Ascii Bool ZArith NArith QArith Permutation Relations Lia.
From Verif Require Import GoLib GoLibFacts MapFacts SchemaModel SchemaFacts RefModel ErrorsModel ValidSpec MarkModel MarkSpec StructModel FlattenModel NeedModel FlattenSpec StructSpec DescModel
  CrdModel CrdSpec CrdProofs4 CrdProps NeedProps EmitModel EmitSpec EmitProps WholeModel WholeSpec WholeProofs WholeProps YamlModel YamlSpec YamlProofs YamlProofs2 YamlProofs3 YamlProps
  PatcherModel PatcherSpec PatcherProofs.
Import ListNotations.
Open Scope string_scope.
Open Scope list_scope.
Open Scope nat_scope.

Lemma NoDup_app_intro {A} (l m : list A) : NoDup l -> NoDup m -> (forall x, In x l -> In x m -> False) -> NoDup (l ++ m).
Proof.
  intros Nl Nm D. induction Nl as [|x l Hx Nl IH]; [exact Nm|]. cbn. constructor; [|apply IH; intros y I J; apply (D y); [right; exact I|exact J]].
  intros I. apply in_app_iff in I as [I|I]; [contradiction|]. apply (D x); [left; reflexivity|exact I].
Qed.
Lemma nodup_fst_in {A B} (l : list (A * B)) x y : NoDup (map fst l) -> In x l -> In y l -> fst x = fst y -> x = y.
Proof.
  induction l as [|z l IH]; [intros _ []|]. cbn. intros N. inversion N as [|? ? Hz N']; subst. intros [->|I] [->|J] E; auto.
  - exfalso. apply Hz. rewrite E. apply in_map, J.
  - exfalso. apply Hz. rewrite <- E. apply in_map, I.
Qed.
Lemma Forall2_mono {A B} (R R' : A -> B -> Prop) l m : (forall a b, R a b -> R' a b) -> Forall2 R l m -> Forall2 R' l m.
Proof. intros H. induction 1; constructor; auto. Qed.

Section Patched.
  Variable order : marker_values -> marker_values.
  Variable sorted : list (string * smarker) -> list (string * smarker).
  Variable allow_dangerous ignore_unexported : bool.
  Variable imports : string -> string -> bool.
  Variable pkg_markers : string -> marker_values.
  Variable types : ident -> option tinfo.
  Variable presets : string -> list (string * schema).
  Variable ord : list string -> list string.
  Variable is_sterm is_space : N -> bool.
  Variable fuel : nat.
  Variable max_desc : option Z.
  Variable gv_order : list (string * (string * string)) -> list (string * (string * string)).
  Variable group_versions : list (string * (string * string)).
  Variable t_order : list ((string * string) * list string) -> list ((string * string) * list string).
  Variable embedded : list ((string * string) * list string).
  Variable k_order k_sort : list (string * string) -> list (string * string).
  Variable to_yaml : schema -> option node.
  Variable short_tag : node -> string.
  Variable s_order : list (gk * crdset schema) -> list (gk * crdset schema).
  Variable O : oracles.
  Hypothesis order_ok : is_order order.
  Hypothesis sorted_ok : sorts sorted.
  Hypothesis ord_ok : is_order ord.
  Hypothesis presets_are_maps : forall p, NoDup (map fst (presets p)).
  Hypothesis Hg : is_order gv_order.
  Hypothesis Ht : is_order t_order.
  Hypothesis Hk : is_order k_order.
  Hypothesis Hs : sorts_by (fun a b => str_ltb (gk_string a) (gk_string b)) k_sort.
  Hypothesis Ho : is_order s_order.
  (** No group and version in two packages *)
  Hypothesis versions_distinct : NoDup (map snd group_versions).
  Notation run := (run_patcher order sorted allow_dangerous ignore_unexported imports pkg_markers types presets ord is_sterm is_space fuel max_desc gv_order group_versions t_order embedded
    k_order k_sort to_yaml short_tag s_order).
  Notation tame := (tame order sorted allow_dangerous ignore_unexported imports pkg_markers types presets).
  Notation made := (made order sorted allow_dangerous ignore_unexported imports pkg_markers types presets ord is_sterm is_space fuel max_desc).
  Notation new_schema := (new_schema order sorted allow_dangerous ignore_unexported imports pkg_markers types presets ord is_sterm is_space fuel max_desc).
  Notation schema_of_type := (schema_of_type order sorted allow_dangerous ignore_unexported imports pkg_markers types presets ord is_sterm is_space fuel max_desc).
  Notation conforms := (conforms O ignore_unexported pkg_markers types presets).
  Notation kube_kind := (kube_kind group_versions embedded).
  Notation kinds := (kinds group_versions t_order embedded k_order k_sort).
  Notation wanted := (wanted gv_order group_versions t_order embedded k_order k_sort).

  Lemma kinds_ok : NoDup kinds /\ forall g k, In (g, k) kinds <-> kube_kind g k.
  Proof.
    split; [apply (kinds_nodup group_versions t_order embedded k_order k_sort Hk Hs)|intros g k; apply (kinds_in group_versions t_order embedded k_order k_sort Ht Hk Hs)].
  Qed.
  Lemma plain_accepts s values : NoDup (map fst (s_props s)) -> (forall v, null_free v = true -> (valid O s v = true <-> values v)) -> accepts_values (valid O (plain_metadata s)) values.
  Proof.
    intros N H. apply (published_accepts O s); auto; unfold plain_metadata; destruct (mget String.eqb (s_props s) "metadata") as [m|] eqn:E.
    - destruct s; reflexivity.
    - destruct s; reflexivity.
    - assert (Hp : forall l, s_props (set_props s l) = l) by (intros l; destruct s; reflexivity). rewrite Hp. apply (MapFacts.mset_keys_present _ _ String.eqb String.eqb_eq). apply (in_map fst (s_props s) ("metadata", m)), (MapFacts.mget_in _ _ String.eqb String.eqb_eq), E.
    - reflexivity.
    - intros k. assert (Hp : forall l, s_props (set_props s l) = l) by (intros l; destruct s; reflexivity). rewrite Hp. destruct (String.eqb_spec k "metadata") as [->|Nk].
      + rewrite (mget_mset_eq _ _ _ String.eqb_eq), E. reflexivity.
      + rewrite (mget_mset_ne _ _ _ String.eqb_eq) by exact Nk. destruct (mget String.eqb (s_props s) k); reflexivity.
    - intros k. destruct (String.eqb_spec k "metadata") as [->|Nk]; [rewrite E; reflexivity|]. destruct (mget String.eqb (s_props s) k); reflexivity.
  Qed.

  Section Dir.
    Variable read : string -> option string.
    Variable type_meta : string -> option (string * string).
    Variable crd_ish : string -> option (gk * list string).
    Variable tree : string -> option node.
    Notation manifest := (manifest read type_meta crd_ish tree).
    Notation unsupported := (unsupported read type_meta).
    Notation rundir := (run read type_meta crd_ish tree true).
    Notation source es := (source read type_meta crd_ish tree es group_versions embedded).

    Lemma run_parts es out rep : rundir (Some es) = PDone out rep -> exists files, read_crds read type_meta crd_ish tree es = Some files /\
      YamlModel.generate schema to_yaml short_tag new_schema gv_order s_order kinds group_versions (load schema files) = YamlModel.Done out /\
      rep = filter (complains order sorted allow_dangerous ignore_unexported imports pkg_markers types presets ord is_sterm is_space fuel max_desc) (wanted (load schema files)) /\
      forall id, In id (wanted (load schema files)) -> exists s a b c, made id = EDone s a b c.
    Proof.
      unfold run_patcher. cbn [negb]. destruct (read_crds read type_meta crd_ish tree es) as [files|]; [|discriminate]. cbv zeta. destruct (existsb _ _) eqn:A; [discriminate|]. destruct (existsb _ _) eqn:B in |- *; [discriminate|].
      destruct (YamlModel.generate _ _ _ _ _ _ _ _ _) as [o| |] eqn:G; try discriminate. intros [= <- <-]. exists files. repeat split; auto. intros id I.
      assert (X : forall g : ident -> bool, existsb g (wanted (load schema files)) = false -> g id = false).
      { intros g E. destruct (g id) eqn:Y; [|reflexivity]. rewrite <- E. symmetry. apply existsb_exists. eauto. }
      apply X in A. apply X in B. destruct (made id) as [s a b c| |]; try discriminate. eauto.
    Qed.
    Lemma load_versions es files g s v : NoDup (map fst es) -> read_crds read type_meta crd_ish tree es = Some files -> mget gk_eqb (load schema files) g = Some s ->
      (In v (cs_versions schema s) <-> listed read type_meta crd_ish tree es g v).
    Proof.
      intros N R G. destruct (read_crds_some _ _ _ _ _ _ R N) as (_ & _ & F & _). destruct (load_spec schema files) as (_ & L & _). destruct (L g s G) as (_ & _ & V). rewrite V. unfold listed. split.
      - intros ([name [[g' vs] d]] & I & E & Iv). cbn in E, Iv. subst g'. apply F in I as (I & M). eauto 6.
      - intros (name & vs & d & I & M & Iv). exists (name, (g, vs, d)). split; [apply F; auto|auto].
    Qed.
    Lemma source_schema es files g s v t : NoDup (map fst es) -> read_crds read type_meta crd_ish tree es = Some files -> mget gk_eqb (load schema files) g = Some s ->
      (schema_for schema new_schema kinds group_versions g (cs_versions schema s) v t <-> exists p, source es g v p /\ t = new_schema p (snd g)).
    Proof.
      intros N R G. unfold schema_for, PatcherSpec.source. destruct g as [gr k]. destruct kinds_ok as (_ & K). rewrite K, (load_versions _ _ _ _ v N R G). cbn [fst snd]. split.
      - intros (A & B & p & C & ->). exists p. auto.
      - intros (p & (A & B & C) & ->). split; [exact A|]. split; [exact B|]. exists p. auto.
    Qed.
    Lemma source_wanted es files g s v p : NoDup (map fst es) -> read_crds read type_meta crd_ish tree es = Some files -> mget gk_eqb (load schema files) g = Some s -> source es g v p -> In (p, snd g) (wanted (load schema files)).
    Proof.
      intros N R G (A & B & C). apply in_flat_map. exists g. destruct g as [gr k]. split; [apply kinds_ok, A|]. rewrite G. apply in_flat_map. exists (p, (gr, v)). split; [apply (Permutation_in _ (Permutation_sym (Hg _))), C|].
      cbn. rewrite String.eqb_refl. cbn. rewrite (proj2 (mem_str_spec _ _)); [left; reflexivity|]. apply (load_versions _ _ _ _ v N R G), B.
    Qed.

    (** An error, if a file with the right name cannot be read or is a CRD of another version; nothing is written then. *)
    Theorem patcher_unsupported es : (exists name, In (name, false) es /\ unsupported name) -> rundir (Some es) = PFailed.
    Proof. intros U. apply (read_crds_none read type_meta crd_ish tree) in U. unfold run_patcher. cbn [negb]. rewrite U. reflexivity. Qed.

    Lemma file_set es files out rep outs : NoDup (map fst es) -> rundir (Some es) = PDone out rep -> read_crds read type_meta crd_ish tree es = Some files -> Permutation out (List.concat outs) ->
      Forall2 (fun e o => exists new, (forall v t, mget String.eqb new v = Some t <-> schema_for schema new_schema kinds group_versions (fst e) (cs_versions schema (snd e)) v t) /\
        docs_result schema to_yaml short_tag new (cs_docs schema (snd e)) o) (load schema files) outs ->
      Permutation (map fst out) (map fst files).
    Proof.
      intros N R E P F. apply (Permutation_map fst) in P. rewrite P. clear P R. destruct (read_crds_some _ _ _ _ _ _ E N) as (Nf & _). destruct (load_spec schema files) as (Nl & L & M).
      assert (Q : map fst (List.concat outs) = map fst (List.concat (map (fun e => cs_docs schema (snd e)) (load schema files)))).
      { clear -F. induction F as [|e o l outs (new & _ & D) F IH]; [reflexivity|]. cbn [List.concat map]. rewrite !map_app, IH. f_equal. destruct D as [(_ & ->)|(_ & D)]; [reflexivity|].
        induction D as [|f f' d d' (A & _) D IH2]; [reflexivity|]. cbn. rewrite A, IH2. reflexivity. }
      rewrite Q. clear F Q outs.
      assert (Gd : forall e, In e (load schema files) -> mget gk_eqb (load schema files) (fst e) = Some (snd e)).
      { intros [g s] I. apply (MapFacts.in_mget _ _ gk_eqb gk_eqb_eq); auto. }
      assert (Dd : map (fun e => cs_docs schema (snd e)) (load schema files) = map (fun g => map (fun f => (fst f, snd (snd f))) (filter (fun f => gk_eqb (fst (fst (snd f))) g) files)) (map fst (load schema files))).
      { rewrite map_map. apply map_ext_in. intros e I. exact (proj1 (proj2 (L _ _ (Gd e I)))). }
      rewrite Dd. assert (Cov : forall f, In f files -> In (fst (fst (snd f))) (map fst (load schema files))).
      { intros f I. destruct (mget gk_eqb (load schema files) (fst (fst (snd f)))) as [s|] eqn:G; [|exfalso; exact (proj1 (M _) G f I eq_refl)]. apply (MapFacts.mget_in _ _ gk_eqb gk_eqb_eq) in G. apply (in_map fst) in G. exact G. }
      apply NoDup_Permutation.
      - revert Nl. generalize (map fst (load schema files)) as gs. clear -Nf. intros gs Nl. induction Nl as [|g gs Hn Nl IH]; [constructor|]. cbn [map List.concat]. rewrite map_app, map_map. cbn [fst].
        apply NoDup_app_intro; [|exact IH|].
        + clear -Nf. induction files as [|f files IH]; [constructor|]. inversion Nf; subst. cbn [filter]. destruct (gk_eqb _ g); [|auto]. cbn. constructor; [|auto]. intros I. apply in_map_iff in I as (f' & E & I). apply filter_In in I as (I & _). apply H1. rewrite <- E. apply in_map, I.
        + intros x I J. apply in_map_iff in I as (f & <- & I). apply filter_In in I as (I & Eg). apply gk_eqb_eq in Eg.
          apply in_map_iff in J as ([n d] & E & J). apply in_concat in J as (l & Il & J). apply in_map_iff in Il as (g' & <- & Ig). apply in_map_iff in J as (f' & Ef & J). apply filter_In in J as (J & Eg'). apply gk_eqb_eq in Eg'.
          injection Ef as <- _. cbn in E. assert (f = f') by (eapply nodup_fst_in; eauto). subst f'. apply Hn. congruence.
      - exact Nf.
      - intros x. split.
        + intros I. apply in_map_iff in I as ([n d] & <- & I). apply in_concat in I as (l & Il & I). apply in_map_iff in Il as (g & <- & _). apply in_map_iff in I as (f & Ef & I). apply filter_In in I as (I & _). injection Ef as <- _. cbn [fst]. apply in_map, I.
        + intros I. apply in_map_iff in I as (f & <- & I). apply in_map_iff. exists (fst f, snd (snd f)). split; [reflexivity|]. apply in_concat. eexists. split; [apply in_map, (Cov f I)|]. apply in_map_iff. exists f. split; [reflexivity|]. apply filter_In. split; [exact I|]. apply gk_eqb_eq; reflexivity.
    Qed.

    (** Every manifest of the directory is written, once, and nothing else is. *)
    Theorem patcher_written es out rep : NoDup (map fst es) -> rundir (Some es) = PDone out rep ->
      NoDup (map fst out) /\ forall name, In name (map fst out) <-> exists g vers doc, In (name, false) es /\ manifest name g vers doc.
    Proof.
      intros N R. destruct (run_parts _ _ _ R) as (files & E & G & _ & _). destruct (read_crds_some _ _ _ _ _ _ E N) as (Nf & _ & F & _). destruct (load_spec schema files) as (Nl & L & _).
      assert (Hn : forall e, In e (load schema files) -> cs_new schema (snd e) = []).
      { intros [g s] I. apply (L g s). apply (MapFacts.in_mget _ _ gk_eqb gk_eqb_eq); auto. }
      destruct (generate_docs _ _ _ _ _ _ _ _ _ _ Hg Ho (proj1 kinds_ok) Nl versions_distinct Hn G) as (outs & P & D).
      pose proof (file_set _ _ _ _ _ N R E P D) as Q. split; [apply (Permutation_NoDup (Permutation_sym Q)), Nf|]. intros name. split.
      - intros I. apply (Permutation_in _ Q) in I. apply in_map_iff in I as ([n [[g vs] d]] & <- & I). apply F in I. eauto.
      - intros (g & vs & d & I). apply F in I. apply (Permutation_in _ (Permutation_sym Q)). apply in_map_iff. exists (name, (g, vs, d)). auto.
    Qed.

    Lemma file_patched es out rep name g vers doc : NoDup (map fst es) -> rundir (Some es) = PDone out rep -> In (name, false) es -> manifest name g vers doc ->
      exists doc' new, In (name, doc') out /\ (forall v t, mget String.eqb new v = Some t <-> exists p, source es g v p /\ t = new_schema p (snd g)) /\
        ((new = [] /\ doc' = doc) \/ (new <> [] /\ set_versioned schema to_yaml short_tag new doc = YamlModel.Done doc')) /\
        (forall v p, source es g v p -> exists s a b c, made (p, snd g) = EDone s a b c /\ (rep = [] -> a = [] /\ b = [] /\ c = [])).
    Proof.
      intros N R I M. destruct (run_parts _ _ _ R) as (files & E & G & Rep & W). destruct (read_crds_some _ _ _ _ _ _ E N) as (Nf & _ & F & _). destruct (load_spec schema files) as (Nl & L & Lm).
      assert (Hn : forall e, In e (load schema files) -> cs_new schema (snd e) = []).
      { intros [g' s] J. apply (L g' s). apply (MapFacts.in_mget _ _ gk_eqb gk_eqb_eq); auto. }
      destruct (generate_docs _ _ _ _ _ _ _ _ _ _ Hg Ho (proj1 kinds_ok) Nl versions_distinct Hn G) as (outs & P & D).
      assert (If : In (name, (g, vers, doc)) files) by (apply F; auto).
      destruct (mget gk_eqb (load schema files) g) as [s|] eqn:Gs; [|exfalso; exact (proj1 (Lm g) Gs _ If eq_refl)].
      destruct (Forall2_in_left _ _ _ D (g, s)) as (o & Io & new & Hnew & Dr); [apply (MapFacts.mget_in _ _ gk_eqb gk_eqb_eq), Gs|]. cbn [fst snd] in *.
      assert (Id : In (name, doc) (cs_docs schema s)).
      { destruct (L g s Gs) as (_ & -> & _). apply in_map_iff. exists (name, (g, vers, doc)). split; [reflexivity|]. apply filter_In. split; [exact If|]. apply gk_eqb_eq. reflexivity. }
      assert (X : exists doc', In (name, doc') o /\ ((new = [] /\ doc' = doc) \/ (new <> [] /\ set_versioned schema to_yaml short_tag new doc = YamlModel.Done doc'))).
      { destruct Dr as [(-> & ->)|(Ne & Fo)]; [exists doc; auto|]. destruct (Forall2_in_left _ _ _ Fo (name, doc) Id) as ([n d'] & Id' & A & B). cbn in A, B. subst n. exists d'. auto. }
      destruct X as (doc' & Id' & X). exists doc', new. split; [apply (Permutation_in _ (Permutation_sym P)), in_concat; exists o; auto|]. split; [intros v t; rewrite Hnew; apply (source_schema _ _ _ _ v t N E Gs)|]. split; [exact X|].
      intros v p S. pose proof (source_wanted _ _ _ _ v p N E Gs S) as Iw. destruct (W _ Iw) as (x & a & b & c & Em). exists x, a, b, c. split; [exact Em|]. intros Er. rewrite Er in Rep.
      assert (C : complains order sorted allow_dangerous ignore_unexported imports pkg_markers types presets ord is_sterm is_space fuel max_desc (p, snd g) = false).
      { destruct (complains _ _ _ _ _ _ _ _ _ _ _ _ _ _) eqn:Co; [|reflexivity]. exfalso. pose proof (proj2 (filter_In _ _ _) (conj Iw Co)) as J. match type of Rep with _ = ?l => change (In (p, snd g) l) in J end. rewrite <- Rep in J. destruct J. }
      unfold complains in C. rewrite Em in C. destruct a, b, c; try discriminate. auto.
    Qed.

    (** A manifest stays as it is if no package is the source of one of its versions. Otherwise its versions stay in number and order and keep
        what is not a schema; a version with a source gets a schema that accepts the values of the kind's type there, if nothing was
        reported; one without loses its schema. Everything but spec.versions and spec.validation is as before. *)
    Theorem patcher_values es out name g vers doc : NoDup (map fst es) -> rundir (Some es) = PDone out [] -> In (name, false) es -> manifest name g vers doc -> paired doc -> unique_keys doc ->
      exists doc', In (name, doc') out /\ ((forall v p, ~ source es g v p) -> doc' = doc) /\
        ((exists v p, source es g v p) ->
         (forall q, diverge ["spec"; "validation"] q -> diverge ["spec"; "versions"] q -> get_node doc' q = get_node doc q) /\
         exists h vs vs', get_node doc ["spec"; "versions"] = Some (Some (Node Sequence h vs)) /\ get_node doc' ["spec"; "versions"] = Some (Some (Node Sequence h vs')) /\
         Forall2 (fun v v' => exists n, get_node v ["name"] = Some (Some n) /\ (forall b q, b <> "schema" -> get_node v' (b :: q) = get_node v (b :: q)) /\
           (forall p, source es g (n_value n) p -> exists s y, to_yaml s = Some y /\ get_node v' ["schema"; "openAPIV3Schema"] = Some (Some (set_style 0 y)) /\
              forall rank, tame (p, snd g) rank -> unmixed (schema_of_type (p, snd g)) -> accepts_values (valid O s) (conforms (p, snd g))) /\
           ((forall p, ~ source es g (n_value n) p) -> get_node v' ["schema"] = Some None)) vs vs').
    Proof.
      intros N R I M Pa Un. destruct (file_patched _ _ _ _ _ _ _ N R I M) as (doc' & new & Io & Hnew & X & Hm). exists doc'. split; [exact Io|]. split.
      - intros No. destruct X as [(_ & ->)|(Ne & _)]; [reflexivity|]. destruct new as [|[v t] new]; [contradiction|]. exfalso. destruct (proj1 (Hnew v t)) as (p & S & _); [cbn; rewrite String.eqb_refl; reflexivity|]. exact (No v p S).
      - intros (v0 & p0 & S0). destruct X as [(-> & _)|(Ne & X)]; [exfalso; assert (Bad : mget String.eqb [] v0 = Some (new_schema p0 (snd g))) by (apply Hnew; eauto); discriminate Bad|]. split.
        { intros q D1 D2. eapply patch_frame; eauto. }
        destruct (patch_version_schemata _ _ _ _ _ _ Pa Un X) as (h & vs & vs' & A & B & F). exists h, vs, vs'. split; [exact A|]. split; [exact B|].
        eapply Forall2_mono; [|exact F]. cbn beta. intros v v' (n & Gn & Fr & K). exists n. split; [exact Gn|]. split; [exact Fr|]. split.
        + intros p S. rewrite (proj2 (Hnew (n_value n) (new_schema p (snd g)))) in K by eauto. destruct K as (y & Ty & Gy & _). exists (new_schema p (snd g)), y. split; [exact Ty|]. split; [exact Gy|]. intros rank T U.
          destruct (Hm _ _ S) as (s & a & b & c & Em & Er). destruct (Er eq_refl) as (-> & -> & ->). unfold WholeModel.schema_of_type, WholeModel.emitted in U. unfold PatcherModel.made in Em. rewrite Em in U.
          unfold PatcherModel.new_schema, PatcherModel.made. rewrite Em. apply plain_accepts.
          * eapply (emit_keys order sorted allow_dangerous ignore_unexported imports pkg_markers types presets ord is_sterm is_space O); eauto.
          * intros u Nu. eapply (emit_values order sorted allow_dangerous ignore_unexported imports pkg_markers types presets ord is_sterm is_space O); eauto.
        + intros No. destruct (mget String.eqb new (n_value n)) as [t|] eqn:Gt; [|exact K]. exfalso. apply Hnew in Gt as (p & S & _). exact (No p S).
    Qed.

    (** When the patcher does not end well: making the schema for a version's source panics (or does not end), or patching a manifest does. *)
    Lemma wanted_source es files id : NoDup (map fst es) -> read_crds read type_meta crd_ish tree es = Some files -> In id (wanted (load schema files)) -> exists g v p, source es g v p /\ id = (p, snd g).
    Proof.
      intros N R I. apply in_flat_map in I as (g & Ig & I). destruct (mget gk_eqb (load schema files) g) as [s|] eqn:G; [|destruct I]. apply in_flat_map in I as ([p [gr v]] & Ip & I). cbn [fst snd] in I.
      destruct (String.eqb_spec gr (fst g)) as [->|]; [|destruct I]. cbn [andb] in I. destruct (mem_str v (cs_versions schema s)) eqn:M; [|destruct I]. destruct I as [<-|[]]. exists g, v, p. split; [|reflexivity].
      split; [apply kinds_ok; destruct g; exact Ig|]. split; [apply (load_versions _ _ _ _ v N R G), mem_str_spec, M|apply (Permutation_in _ (Hg _)), Ip].
    Qed.
    Lemma patch_panics (l : list (gk * crdset schema)) : patch_sets schema to_yaml short_tag l = YamlModel.Panics -> exists g s f new, In (g, s) l /\ In f (cs_docs schema s) /\ set_versioned schema to_yaml short_tag new (snd f) = YamlModel.Panics.
    Proof.
      induction l as [|[g s] l IH]; [discriminate|]. cbn [patch_sets].
      assert (D : forall new docs, patch_docs schema to_yaml short_tag new docs = YamlModel.Panics -> exists f, In f docs /\ set_versioned schema to_yaml short_tag new (snd f) = YamlModel.Panics).
      { intros new. induction docs as [|[n d] docs IHd]; [discriminate|]. cbn [patch_docs]. destruct (set_versioned schema to_yaml short_tag new d) eqn:E; [|discriminate|intros _; exists (n, d); split; [left; reflexivity|exact E]].
        destruct (patch_docs schema to_yaml short_tag new docs); [discriminate|discriminate|]. intros _. destruct (IHd eq_refl) as (f & I & H). exists f. split; [right; exact I|exact H]. }
      assert (X : forall r, r = YamlModel.Panics \/ r <> YamlModel.Panics :> YamlModel.outcome (list (string * node))) by (intros []; auto; right; discriminate).
      destruct (X (match cs_new schema s with [] => YamlModel.Done (cs_docs schema s) | _ => patch_docs schema to_yaml short_tag (cs_new schema s) (cs_docs schema s) end)) as [E|E].
      - intros _. destruct (cs_new schema s) as [|x new] eqn:En; [discriminate|]. rewrite <- En in E. destruct (D _ _ E) as (f & If & H). exists g, s, f, (cs_new schema s). split; [left; reflexivity|]. auto.
      - intros H. destruct (match cs_new schema s with [] => _ | _ => _ end); [|discriminate|congruence]. destruct (patch_sets schema to_yaml short_tag l); [discriminate|discriminate|].
        destruct (IH eq_refl) as (g' & s' & f & new & I & K). exists g', s', f, new. split; [right; exact I|exact K].
    Qed.
    Theorem patcher_crash es : NoDup (map fst es) ->
      (rundir (Some es) = PFuel -> exists g v p, source es g v p /\ made (p, snd g) = EFuel) /\
      (rundir (Some es) = PPanic -> (exists g v p, source es g v p /\ made (p, snd g) = EPanic) \/
        exists name g vers doc new, In (name, false) es /\ manifest name g vers doc /\ set_versioned schema to_yaml short_tag new doc = YamlModel.Panics).
    Proof.
      intros N. unfold run_patcher. cbn [negb]. destruct (read_crds read type_meta crd_ish tree es) as [files|] eqn:R; [|split; discriminate]. cbv zeta.
      assert (X : forall h : ident -> bool, existsb h (wanted (load schema files)) = true -> exists g v p, source es g v p /\ h (p, snd g) = true).
      { intros h E. apply existsb_exists in E as (id & I & E). destruct (wanted_source _ _ _ N R I) as (g & v & p & S & ->). eauto. }
      destruct (existsb _ _) eqn:A.
      { split; [intros _|discriminate]. destruct (X _ A) as (g & v & p & S & E). exists g, v, p. split; [exact S|]. destruct (made (p, snd g)); [discriminate|discriminate|reflexivity]. }
      destruct (existsb _ _) eqn:B in |- *.
      { split; [discriminate|intros _; left]. destruct (X _ B) as (g & v & p & S & E). exists g, v, p. split; [exact S|]. destruct (made (p, snd g)); [discriminate|reflexivity|discriminate]. }
      destruct (YamlModel.generate _ _ _ _ _ _ _ _ _) eqn:G; (split; [discriminate|]); try discriminate. intros _. right. unfold YamlModel.generate in G. destruct (load_spec schema files) as (Nl & L & _).
      rewrite (collect_all_eq schema new_schema gv_order group_versions kinds _ (proj1 kinds_ok) Nl) in G. apply patch_panics in G as (g & s & f & new & I & If & H).
      apply (Permutation_in _ (Ho _)) in I. apply in_map_iff in I as ([g' s'] & E & I). apply (MapFacts.in_mget _ _ gk_eqb gk_eqb_eq _ _ _ Nl) in I. destruct (L g' s' I) as (_ & Ed & _).
      assert (Es : cs_docs schema s = cs_docs schema s').
      { match type of E with _ = ?r => change s with (snd r) end. rewrite <- E. clear. unfold YamlProofs3.touch. cbn [fst snd]. destruct (existsb (gk_eqb g') kinds); [|reflexivity].
        assert (C : forall gvs c, cs_docs schema (collect schema new_schema g' gvs c) = cs_docs schema c).
        { unfold YamlModel.collect. induction gvs as [|q gvs IH]; intros c; [reflexivity|]. cbn [fold_left]. rewrite IH. destruct (String.eqb (fst (snd q)) (fst g') && mem_str (snd (snd q)) (cs_versions schema c)); reflexivity. }
        apply C. }
      rewrite Es, Ed in If. apply in_map_iff in If as ([n [[g0 vs] d]] & <- & If). apply filter_In in If as (If & _). destruct (read_crds_some _ _ _ _ _ _ R N) as (_ & _ & F & _). apply F in If as (Ie & M). exists n, g0, vs, d, new. auto.
    Qed.

    (** Writing the files where they were and running again writes the same: [print] is the encoding of a document, which is decoded to the same
        document, and to the same group, kind and versions as before. *)
    Variable print : node -> string.
    Definition overwritten (out : list (string * node)) (name : string) : option string := match mget String.eqb out name with Some d => Some (print d) | None => read name end.
    Definition kept_doc (out : list (string * node)) (name : string) (d : node) : node := match mget String.eqb out name with Some d' => d' | None => d end.
    Lemma read_again out es : (forall name d', mget String.eqb out name = Some d' -> In (name, false) es -> exists raw, read name = Some raw /\ type_meta (print d') = type_meta raw /\ crd_ish (print d') = crd_ish raw /\ tree (print d') = Some d' /\ tree raw <> None) ->
      read_crds (overwritten out) type_meta crd_ish tree es = match read_crds read type_meta crd_ish tree es with Some l => Some (map (redo_file (kept_doc out)) l) | None => None end.
    Proof.
      induction es as [|[name dir] es IH]; intros H; [reflexivity|]. assert (IH' := IH (fun n d A B => H n d A (or_intror B))). clear IH. cbn [PatcherModel.read_crds]. destruct dir; cbn [orb]; [exact IH'|].
      destruct (negb (String.eqb (extension name) ".yaml")); [exact IH'|]. unfold overwritten at 1. destruct (mget String.eqb out name) as [d'|] eqn:G.
      - destruct (H name d' G (or_introl eq_refl)) as (raw & R & A & B & C & D). rewrite R, A, B, C. destruct (type_meta raw) as [[api k]|]; [|exact IH']. destruct (String.eqb api "" || _); [exact IH'|]. destruct (negb _); [reflexivity|].
        destruct (crd_ish raw) as [[g vs]|]; [|exact IH']. destruct (tree raw) as [d|]; [|congruence]. rewrite IH'. destruct (read_crds read type_meta crd_ish tree es); [|reflexivity]. cbn. unfold redo_file, kept_doc. cbn. rewrite G. reflexivity.
      - destruct (read name) as [raw|]; [|reflexivity]. destruct (type_meta raw) as [[api k]|]; [|exact IH']. destruct (String.eqb api "" || _); [exact IH'|]. destruct (negb _); [reflexivity|].
        destruct (crd_ish raw) as [[g vs]|]; [|exact IH']. destruct (tree raw) as [d|]; [|exact IH']. rewrite IH'. destruct (read_crds read type_meta crd_ish tree es); [|reflexivity]. cbn. unfold redo_file, kept_doc. cbn. rewrite G. reflexivity.
    Qed.
    Theorem patcher_again es out rep : NoDup (map fst es) -> rundir (Some es) = PDone out rep ->
      (forall name g vers doc, In (name, false) es -> manifest name g vers doc -> paired doc /\ unique_keys doc) ->
      (forall name doc' raw, In (name, doc') out -> read name = Some raw -> type_meta (print doc') = type_meta raw /\ crd_ish (print doc') = crd_ish raw /\ tree (print doc') = Some doc') ->
      exists out', run (overwritten out) type_meta crd_ish tree true (Some es) = PDone out' rep /\ Permutation out out'.
    Proof.
      intros N R Wf Pr. destruct (patcher_written _ _ _ N R) as (No & Wr). destruct (run_parts _ _ _ R) as (files & E & G & Rep & W). destruct (read_crds_some _ _ _ _ _ _ E N) as (Nf & _ & F & _). destruct (load_spec schema files) as (Nl & L & _).
      assert (E' : read_crds (overwritten out) type_meta crd_ish tree es = Some (map (redo_file (kept_doc out)) files)).
      { rewrite read_again, E; [reflexivity|]. intros name d' Gd I. apply (MapFacts.mget_in _ _ String.eqb String.eqb_eq) in Gd. destruct (proj1 (Wr name) (in_map fst _ _ Gd)) as (g & vs & d & _ & M). destruct M as (_ & raw & Rr & _ & _ & Tr).
        exists raw. split; [exact Rr|]. destruct (Pr _ _ _ Gd Rr) as (A & B & C). repeat split; auto. congruence. }
      assert (Gd : forall g s, In (g, s) (load schema files) -> mget gk_eqb (load schema files) g = Some s) by (intros g s I; apply (MapFacts.in_mget _ _ gk_eqb gk_eqb_eq); auto).
      destruct (generate_again schema to_yaml short_tag new_schema gv_order s_order kinds group_versions (load schema files) out (kept_doc out) Hg Ho (proj1 kinds_ok) Nl versions_distinct) as (out' & G' & P); [| |exact G| |].
      - intros [g s] I. apply (L g s), Gd, I.
      - intros [g s] [n d] I If. destruct (L g s (Gd g s I)) as (_ & Ed & _). cbn [snd] in *. rewrite Ed in If. apply in_map_iff in If as ([n' [[g' vs] d'']] & X & If). apply filter_In in If as (If & _). injection X as <- <-. cbn [fst snd]. apply F in If as (A & B). eapply Wf; eauto.
      - intros [n d] d0 I. unfold kept_doc. cbn [fst snd]. rewrite (MapFacts.in_mget _ _ String.eqb String.eqb_eq _ _ _ No I). reflexivity.
      - exists out'. split; [|exact P]. unfold run_patcher. cbn [negb]. rewrite E', redo_load. cbv zeta.
        assert (Ww : wanted (map (redo_set schema (kept_doc out)) (load schema files)) = wanted (load schema files)).
        { unfold PatcherModel.wanted. apply flat_map_ext. intros g. rewrite redo_mget. destruct (mget gk_eqb (load schema files) g); reflexivity. }
        rewrite Ww. unfold run_patcher in R. cbn [negb] in R. rewrite E in R. cbv zeta in R. destruct (existsb _ _); [discriminate|]. destruct (existsb _ _); [discriminate|]. rewrite G'. rewrite Rep. reflexivity.
    Qed.
  End Dir.
End Patched.

Print Assumptions patcher_unsupported.
Print Assumptions patcher_written.
Print Assumptions patcher_values.
Print Assumptions patcher_again.
Print Assumptions patcher_crash.

(** ** Examples *)
(** A manifest of the kind Box with versions v1 and v2 in the sources and v3 not; one of another kind; and what is no manifest *)
Definition shelf_doc (name : string) : node := dc (mp [("metadata", mp [("name", scal name)]); ("spec", mp [("group", scal "g"); ("versions", sq [
  mp [("name", scal "v2"); ("served", scal "true"); ("schema", mp [("openAPIV3Schema", scal "old")])]; mp [("name", scal "v1")]; mp [("name", scal "v3"); ("schema", mp [])]])])]).
Definition shelf_entries : list (string * bool) := [("a.yaml", false); ("b.yaml", false); ("c.yaml", false); ("d.yaml", true); ("e.txt", false)].
Definition shelf_read (name : string) : option string := if String.eqb name "e.txt" then None else Some name.
Definition shelf_meta (raw : string) : option (string * string) :=
  if mem_str raw ["a.yaml"; "b.yaml"; "a"; "b"] then Some ("apiextensions.k8s.io/v1", "CustomResourceDefinition") else Some ("v1", "Service").
Definition shelf_ish (raw : string) : option (gk * list string) := Some (("g", if mem_str raw ["a.yaml"; "a"] then "Box" else "Shelf"), ["v2"; "v1"; "v3"]).
Definition shelf_yaml (s : schema) : option node := Some (mp (map (fun p => (fst p, scal (k_type (s_kw (snd p))))) (s_props s))).
Notation shelf_run types groups embedded := (run_patcher (fun l => l) MarkProps.stable false true box_imports (fun _ => []) types box_presets (fun l => l) (fun c => N.eqb c 46) (fun c => N.eqb c 32) 100 None
  (fun l => l) groups (fun l => l) embedded (fun l => l) by_kind shelf_yaml (fun _ => "!!str") (fun l => l)).
Notation shelf_first := (shelf_run box_types box_groups box_embedded shelf_read shelf_meta shelf_ish (fun raw => Some (shelf_doc raw)) true (Some shelf_entries)).
Definition shelf_out : list (string * node) := Eval vm_compute in match shelf_first with PDone out _ => out | _ => [] end.

Definition shelf_tree (raw : string) : option node :=
  if String.eqb raw "a" then mget String.eqb shelf_out "a.yaml" else if String.eqb raw "b" then mget String.eqb shelf_out "b.yaml" else Some (shelf_doc raw).
Definition shelf_print (d : node) : string := match get_node d ["metadata"; "name"] with Some (Some n) => if String.eqb (n_value n) "a.yaml" then "a" else "b" | _ => "" end.
Notation shelf_second := (shelf_run box_types box_groups box_embedded shelf_read shelf_meta shelf_ish shelf_tree true (Some shelf_entries)).
Example shelf_runs : shelf_second = PDone shelf_out [] /\ map fst shelf_out = ["a.yaml"; "b.yaml"] /\ mget String.eqb shelf_out "b.yaml" = Some (shelf_doc "b.yaml") /\
  exists d vs, mget String.eqb shelf_out "a.yaml" = Some d /\ get_node d ["spec"; "versions"] = Some (Some (sq vs)) /\
    map (fun v => get_node v ["schema"; "openAPIV3Schema"]) vs =
      [Some (Some (set_style 0 (mp [("metadata", scal "object"); ("size", scal "string"); ("kind", scal "string")])));
       Some (Some (set_style 0 (mp [("metadata", scal "object"); ("size", scal "integer"); ("kind", scal "string")]))); Some None].
Proof. split; [vm_compute; reflexivity|]. split; [reflexivity|]. split; [reflexivity|]. eexists _, _. repeat split; vm_compute; reflexivity. Qed.

Notation shelf_manifest := (manifest shelf_read shelf_meta shelf_ish shelf_tree).
Lemma shelf_manifests : shelf_manifest "a.yaml" ("g", "Box") ["v2"; "v1"; "v3"] (shelf_doc "a.yaml") /\ shelf_manifest "b.yaml" ("g", "Shelf") ["v2"; "v1"; "v3"] (shelf_doc "b.yaml").
Proof.
  split; [split; [exists "a"; reflexivity|exists "a.yaml"]|split; [exists "b"; reflexivity|exists "b.yaml"]];
    (split; [reflexivity|]; split; [split; [discriminate|reflexivity]|split; reflexivity]).
Qed.
Lemma shelf_docs name : paired (shelf_doc name) /\ unique_keys (shelf_doc name).
Proof. split; ynodes; try congruence; intros _; repeat constructor; cbn; intuition discriminate. Qed.
Lemma shelf_sources v p : In (v, p) [("v1", "p1"); ("v2", "p2")] -> source shelf_read shelf_meta shelf_ish shelf_tree shelf_entries box_groups box_embedded ("g", "Box") v p.
Proof.
  destruct shelf_manifests as (A & _). intros [[= <- <-]|[[= <- <-]|[]]].
  all: split; [cbn [fst snd]; apply (kinds_ok box_groups (fun l => l) box_embedded (fun l => l) by_kind case_id case_id by_kind_sorts); vm_compute; auto|].
  all: split; [exists "a.yaml", ["v2"; "v1"; "v3"], (shelf_doc "a.yaml"); split; [left; reflexivity|]; split; [exact A|cbn; auto]|cbn; auto].
Qed.
Example shelf_accepts p : In p ["p1"; "p2"] -> exists s y n, shelf_yaml s = Some y /\ n_value n = (if String.eqb p "p1" then "v1" else "v2") /\ accepts_values (valid O_real s) (box_conforms p).
Proof.
  intros Ip. destruct shelf_runs as (R & _). destruct shelf_manifests as (M & _). destruct (shelf_docs "a.yaml") as (Pa & Un).
  destruct (patcher_values (fun l => l) MarkProps.stable false true box_imports (fun _ => []) box_types box_presets (fun l => l) (fun c => N.eqb c 46) (fun c => N.eqb c 32) 100 None
    (fun l => l) box_groups (fun l => l) box_embedded (fun l => l) by_kind shelf_yaml (fun _ => "!!str") (fun l => l) O_real
    MarkProps.id_order MarkProps.stable_sorts MarkProps.id_order ltac:(intros q; unfold box_presets; destruct (String.eqb q "meta"); repeat constructor; intros []) case_id case_id case_id by_kind_sorts case_id
    ltac:(repeat constructor; cbn; intuition discriminate) shelf_read shelf_meta shelf_ish shelf_tree shelf_entries shelf_out "a.yaml" ("g", "Box") ["v2"; "v1"; "v3"] (shelf_doc "a.yaml")
    ltac:(repeat constructor; cbn; intuition discriminate) R (or_introl eq_refl) M Pa Un) as (doc' & _ & _ & H).
  destruct H as (_ & h & vs & vs' & A & _ & F); [exists "v1", "p1"; apply shelf_sources; left; reflexivity|]. clear R. vm_compute in A. injection A as <- <-.
  inversion F as [|x x' l l' (n & Gn & _ & K & _) F']; subst. inversion F' as [|x2 x2' l2 l2' (n2 & Gn2 & _ & K2 & _) _]; subst. vm_compute in Gn, Gn2. injection Gn as <-. injection Gn2 as <-. clear F F' M Pa Un.
  destruct Ip as [<-|[<-|[]]].
  - destruct (K2 "p1") as (s & y & Y & _ & V); [apply shelf_sources; left; reflexivity|]. exists s, y, (scal "v1"). split; [exact Y|]. split; [reflexivity|]. apply (V box_rank (box_tame "p1" (or_introl eq_refl)) (box_unmixed "p1" (or_introl eq_refl))).
  - destruct (K "p2") as (s & y & Y & _ & V); [apply shelf_sources; right; left; reflexivity|]. exists s, y, (scal "v2"). split; [exact Y|]. split; [reflexivity|]. apply (V box_rank (box_tame "p2" (or_intror (or_introl eq_refl))) (box_unmixed "p2" (or_intror (or_introl eq_refl)))).
Qed.
Example shelf_again : exists out', shelf_run box_types box_groups box_embedded (overwritten shelf_read shelf_print shelf_out) shelf_meta shelf_ish shelf_tree true (Some shelf_entries) = PDone out' [] /\ Permutation shelf_out out'.
Proof.
  destruct shelf_runs as (R & _).
  refine (patcher_again (fun l => l) MarkProps.stable false true box_imports (fun _ => []) box_types box_presets (fun l => l) (fun c => N.eqb c 46) (fun c => N.eqb c 32) 100 None
    (fun l => l) box_groups (fun l => l) box_embedded (fun l => l) by_kind shelf_yaml (fun _ => "!!str") (fun l => l)
    case_id case_id case_id by_kind_sorts case_id
    ltac:(repeat constructor; cbn; intuition discriminate) shelf_read shelf_meta shelf_ish shelf_tree shelf_print shelf_entries shelf_out []
    ltac:(repeat constructor; cbn; intuition discriminate) R _ _); clear R.
  - intros name g vs d I (_ & raw & Rr & (_ & Tm) & _ & Tr). destruct I as [[= <-]|[[= <-]|[[= <-]|[E|[[= <-]|[]]]]]]; try discriminate; injection Rr as <-; try discriminate; injection Tr as <-; apply shelf_docs.
  - intros name d raw I Rr. destruct I as [[= <- <-]|[[= <- <-]|[]]]; injection Rr as <-; vm_compute; auto.
Qed.

(** The kind need not be a type of every package of the group: the patcher panics then, if the manifest lists the version (the CRD generator leaves
    such packages out). *)
Definition lone_types (id : ident) : option tinfo := if ident_eqb id ("p2", "Box") then None else box_types id.
Definition lone_embedded : list ((string * string) * list string) := [(("p1", "Box"), ["TypeMeta"; "ObjectMeta"]); (("meta", "TypeMeta"), [])].
Theorem patcher_missing_kind_refuted : kube_kind box_groups lone_embedded "g" "Box" /\ lone_types ("p2", "Box") = None /\
  shelf_run lone_types box_groups lone_embedded shelf_read shelf_meta shelf_ish shelf_tree true (Some shelf_entries) = PPanic /\
  exists out, shelf_run lone_types [("p1", ("g", "v1"))] lone_embedded shelf_read shelf_meta shelf_ish shelf_tree true (Some shelf_entries) = PDone out [].
Proof.
  split; [apply (kinds_ok box_groups (fun l => l) lone_embedded (fun l => l) by_kind case_id case_id by_kind_sorts); vm_compute; auto|]. split; [reflexivity|]. split; [vm_compute; reflexivity|]. eexists. vm_compute. reflexivity.
Qed.
Print Assumptions patcher_missing_kind_refuted.
