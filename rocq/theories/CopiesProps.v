(** * C66: the object generator writes the methods that the comments ask for

    Generate as a whole (CopiesModel): for all packages, comments, headers and results of writing. *)
From Coq Require Import List String Ascii Bool Arith ZArith NArith QArith Permutation Lia.
From Verif Require Import GoLib GoLibFacts MapFacts DocModel SchemaModel ErrorsModel RegistryModel CollectModel CollectSpec
  TablesModel TablesSpec TablesProofs TablesProofs3 SourceModel SourceSpec SourceProps OriginModel OriginSpec ManifestModel ManifestSpec ManifestProofs.
From Verif Require Import DeepModel DeepSpec DeepTypes DeepTypesProofs DeepEnds DeepProps DeepTypesProps ImportModel ImportSpec ObjectModel ObjectSpec ObjectProofs ObjectFile ObjectProps CopiesModel CopiesSpec CopiesProofs CopiesProofs2.
Import ListNotations.
Open Scope string_scope.
Open Scope nat_scope.
Open Scope list_scope.

(** The file that was written for a root *)
Definition file_of (files : list output) (p : string) : option ObjectModel.file := option_map o_file (find (fun o => String.eqb (o_root o) p) files).

Section Claims.
  Variable fval : string -> option Q.
  Variable json_read : string -> option json.
  Variable gs : list generator.
  Variable forder : SourceModel.file -> list (nat * list marker) -> list (nat * list marker).
  Variable vorder : list (string * list tvalue) -> list (string * list tvalue).
  Variable decls : string -> string -> decl.
  Variable exported : string -> bool.
  Variable home : string -> string -> place.
  Variable known_as : string -> string -> ObjectModel.type_of.
  Variable letter digit : nat -> bool.
  Variable torder : list (string * ObjectModel.written) -> list (string * ObjectModel.written).
  Variable porder : list (word * word) -> list (word * word).
  Variable name_of : string -> word -> option word.
  Variable formats : string -> string -> ObjectModel.file -> bool.
  Variable opens writes : string -> bool.
  Hypothesis forder_perm : forall f l, Permutation (forder f l) l.
  Hypothesis vorder_perm : forall l, Permutation (vorder l) l.
  Hypothesis torder_perm : forall l, Permutation (torder l) l.
  Hypothesis porder_perm : forall l, Permutation l (porder l).
  Notation marks := (marks fval json_read gs forder).
  Notation pkg_set := (package_set fval json_read gs forder vorder).
  Notation one_root := (one_root fval json_read gs forder vorder decls exported home known_as letter digit).
  Notation all_roots := (all_roots fval json_read gs forder vorder decls exported home known_as letter digit).
  Notation generate_copies := (generate_copies fval json_read gs forder vorder decls exported home known_as letter digit).
  Notation infos p gp := (map (object_info fval json_read gs forder known_as p gp) (gp_decls gp)).

  (** ** The run, root by root *)
  Section Run.
    Variable steps rounds : nat.
    Variable header_file : option (option string).
    Variable year : string.
    Variable roots : list (string * gpackage).
    Hypothesis distinct : NoDup (map fst roots).
    Hypothesis all_compiled : forall p gp, In (p, gp) roots -> compiled gp.
    Hypothesis all_go : forall p gp, In (p, gp) roots -> go_decls (decls p).
    Variable files : list output.
    Variable errs : list (string * cerr).
    Hypothesis run : generate_copies steps rounds torder porder name_of formats opens writes header_file year roots = CEnded files errs.

    Lemma run_header : exists h, header_text header_file year = Some h /\ all_roots steps rounds torder porder name_of formats opens writes h roots = Done (files, errs).
    Proof.
      unfold CopiesModel.generate_copies in run. destruct (header_text header_file year) as [h|]; [|discriminate]. exists h. split; [reflexivity|]. destruct (all_roots _ _ _ _ _ _ _ _ h roots) as [[fs es]| |]; try discriminate. injection run as -> ->. reflexivity.
    Qed.
    Lemma one_inv h p gp fs es : one_root steps rounds torder porder name_of formats opens writes h p gp = Done (fs, es) -> exists f ge,
      generate_for_package (decls p) exported (home p) letter digit steps rounds torder porder (name_of p) (formats p (top_text h (gp_name gp))) (w (gp_name gp))
        (package_object_markers fval json_read gs forder vorder gp) (object_infos fval json_read gs forder vorder known_as p gp) = Done (f, ge) /\
      fs = match f with Some f => if opens p then [mkOutput p "zz_generated.deepcopy.go" (top_text h (gp_name gp)) f (writes p)] else [] | None => [] end /\
      es = map (fun e => (p, CGen e)) ge ++ match f with Some _ => if opens p then if writes p then [] else [(p, CWrite)] else [(p, COpen)] | None => [] end.
    Proof.
      unfold CopiesModel.one_root. destruct (generate_for_package _ _ _ _ _ _ _ _ _ _ _ _ _ _) as [[f ge]| |]; cbn [bind]; try discriminate. intros H. exists f, ge. split; [reflexivity|].
      destruct f as [f|]; [destruct (opens p); cbn [negb] in H|]; injection H as <- <-; rewrite ?app_nil_r; auto.
    Qed.
    Lemma all_inv h : forall rs fs es, all_roots steps rounds torder porder name_of formats opens writes h rs = Done (fs, es) ->
      (forall p gp, In (p, gp) rs -> exists fs' es', one_root steps rounds torder porder name_of formats opens writes h p gp = Done (fs', es') /\ incl fs' fs /\ incl es' es) /\
      (forall o, In o fs -> exists p gp fs' es', In (p, gp) rs /\ one_root steps rounds torder porder name_of formats opens writes h p gp = Done (fs', es') /\ In o fs') /\
      (forall e, In e es -> exists p gp fs' es', In (p, gp) rs /\ one_root steps rounds torder porder name_of formats opens writes h p gp = Done (fs', es') /\ In e es').
    Proof.
      induction rs as [|[p gp] rs IH]; intros fs es H; cbn [CopiesModel.all_roots] in H.
      - injection H as <- <-. repeat split; [intros p gp []|intros o []|intros e []].
      - destruct (one_root steps rounds torder porder name_of formats opens writes h p gp) as [[f1 e1]| |] eqn:E1; try discriminate. cbn [bind] in H.
        destruct (all_roots steps rounds torder porder name_of formats opens writes h rs) as [[f2 e2]| |] eqn:E2; try discriminate. cbn [bind fst snd] in H. injection H as <- <-.
        destruct (IH f2 e2 eq_refl) as (A & B & C). split; [|split].
        + intros p' gp' [[= <- <-]|I]; [exists f1, e1; split; [exact E1|]; split; apply incl_appl, incl_refl|]. destruct (A p' gp' I) as (fs' & es' & R & F & G). exists fs', es'. split; [exact R|]. split; apply incl_appr; assumption.
        + intros o I. apply in_app_or in I as [I|I]; [exists p, gp, f1, e1; split; [now left|auto]|]. destruct (B o I) as (p' & gp' & fs' & es' & I' & R). exists p', gp', fs', es'. split; [now right|exact R].
        + intros e I. apply in_app_or in I as [I|I]; [exists p, gp, f1, e1; split; [now left|auto]|]. destruct (C e I) as (p' & gp' & fs' & es' & I' & R). exists p', gp', fs', es'. split; [now right|exact R].
    Qed.
    Lemma root_unique p gp gp' : In (p, gp) roots -> In (p, gp') roots -> gp = gp'.
    Proof.
      intros I I'. apply (MapFacts.in_mget _ _ String.eqb String.eqb_eq _ _ _ distinct) in I. apply (MapFacts.in_mget _ _ String.eqb String.eqb_eq _ _ _ distinct) in I'. congruence.
    Qed.
    (** What a root gets *)
    Lemma root_inv p gp : In (p, gp) roots -> exists h f ge,
      header_text header_file year = Some h /\
      generate_for_package (decls p) exported (home p) letter digit steps rounds torder porder (name_of p) (formats p (top_text h (gp_name gp))) (w (gp_name gp))
        (package_object_markers fval json_read gs forder vorder gp) (object_infos fval json_read gs forder vorder known_as p gp) = Done (f, ge) /\
      (forall o, In o files /\ o_root o = p <-> exists f', f = Some f' /\ opens p = true /\ o = mkOutput p "zz_generated.deepcopy.go" (top_text h (gp_name gp)) f' (writes p)) /\
      (forall e, In (p, e) errs <-> (exists g, e = CGen g /\ In g ge) \/ (e = COpen /\ f <> None /\ opens p = false) \/ (e = CWrite /\ f <> None /\ opens p = true /\ writes p = false)).
    Proof.
      intros I. destruct run_header as (h & Eh & R). destruct (all_inv h roots files errs R) as (A & B & C). destruct (A p gp I) as (fs & es & O & Fi & Ei). destruct (one_inv h p gp fs es O) as (f & ge & G & Ef & Ee).
      exists h, f, ge. split; [exact Eh|]. split; [exact G|].
      assert (Own : forall p' gp' fs' es' o, one_root steps rounds torder porder name_of formats opens writes h p' gp' = Done (fs', es') -> In o fs' -> o_root o = p').
      { intros p' gp' fs' es' o O' Io. destruct (one_inv h p' gp' fs' es' O') as (f' & ge' & _ & -> & _). destruct f' as [f'|]; [|destruct Io]. destruct (opens p'); [|destruct Io]. destruct Io as [<-|[]]. reflexivity. }
      assert (Ownb : forall p' gp' fs' es' e, one_root steps rounds torder porder name_of formats opens writes h p' gp' = Done (fs', es') -> In e es' -> fst e = p').
      { intros p' gp' fs' es' e O' Io. destruct (one_inv h p' gp' fs' es' O') as (f' & ge' & _ & _ & ->). apply in_app_or in Io as [Io|Io]; [apply in_map_iff in Io as (g & <- & _); reflexivity|].
        destruct f' as [f'|]; [|destruct Io]. destruct (opens p'), (writes p'); cbn in Io; try destruct Io as [<-|[]]; try destruct Io; reflexivity. }
      split.
      - intros o. split.
        + intros (Io & Eo). destruct (B o Io) as (p' & gp' & fs' & es' & I' & O' & Io'). assert (p' = p) as -> by (rewrite <- Eo; symmetry; exact (Own _ _ _ _ _ O' Io')). rewrite (root_unique p gp' gp I' I) in O'. rewrite O in O'. injection O' as <- <-.
          subst fs. destruct f as [f|]; [|destruct Io']. destruct (opens p) eqn:Op; [|destruct Io']. destruct Io' as [<-|[]]. exists f. auto.
        + intros (f' & -> & Op & ->). rewrite Op in Ef. split; [|reflexivity]. apply Fi. rewrite Ef. now left.
      - intros e. split.
        + intros Ie. destruct (C _ Ie) as (p' & gp' & fs' & es' & I' & O' & Ie'). assert (p' = p) as -> by (symmetry; exact (Ownb _ _ _ _ _ O' Ie')). rewrite (root_unique p gp' gp I' I) in O'. rewrite O in O'. injection O' as <- <-.
          subst es. apply in_app_or in Ie' as [Ie'|Ie']; [apply in_map_iff in Ie' as (g & [= <-] & Ig); left; eauto|]. right. destruct f as [f|]; [|destruct Ie']. destruct (opens p) eqn:Op.
          * destruct (writes p) eqn:W; [destruct Ie'|]. destruct Ie' as [[= <-]|[]]. right. split; [reflexivity|]. split; [discriminate|auto].
          * destruct Ie' as [[= <-]|[]]. left. split; [reflexivity|]. split; [discriminate|auto].
        + intros H. apply Ei. rewrite Ee. apply in_or_app. destruct H as [(g & -> & Ig)|[(-> & Nf & Op)|(-> & Nf & Op & W)]]; [left; apply in_map_iff; eauto| |]; right; (destruct f as [f|]; [|congruence]).
          * rewrite Op. now left.
          * rewrite Op, W. now left.
    Qed.
    Lemma root_files p : (forall o, In o files -> o_root o <> p) \/ exists gp, In (p, gp) roots.
    Proof.
      destruct (in_dec String.string_dec p (map fst roots)) as [H|H].
      - right. apply in_map_iff in H as ([p' gp] & <- & I). eauto.
      - left. intros o Io <-. apply H. destruct run_header as (h & Eh & R). destruct (all_inv h roots files errs R) as (_ & B & _). destruct (B o Io) as (p & gp & fs & es & I & O & Io').
        destruct (one_inv h p gp fs es O) as (f & ge & _ & -> & _). destruct f as [f|]; [|destruct Io']. destruct (opens p); [|destruct Io']. destruct Io' as [<-|[]]. apply in_map_iff. exists (p, gp). auto.
    Qed.
    (** A package is read, or has an error. *)
    Lemma root_read p gp : In (p, gp) roots -> ~ In (p, CGen EMarkers) errs -> exists m, pkg_set (gp_files gp) = Some (inl m).
    Proof.
      intros I N. destruct (root_inv p gp I) as (h & f & ge & _ & G & _ & Er). unfold package_object_markers in G. destruct (pkg_set (gp_files gp)) as [[m|e]|]; [eauto| |]; exfalso; apply N, Er; left; exists EMarkers; (split; [reflexivity|]);
        cbn in G; injection G as <- <-; now left.
    Qed.
    Lemma run_read p gp m h f ge : In (p, gp) roots -> pkg_set (gp_files gp) = Some (inl m) ->
      generate_for_package (decls p) exported (home p) letter digit steps rounds torder porder (name_of p) (formats p (top_text h (gp_name gp))) (w (gp_name gp))
        (package_object_markers fval json_read gs forder vorder gp) (object_infos fval json_read gs forder vorder known_as p gp) = Done (f, ge) ->
      generate_for_package (decls p) exported (home p) letter digit steps rounds torder porder (name_of p) (formats p (top_text h (gp_name gp))) (w (gp_name gp)) (Some (object_set m)) (Some (infos p gp)) = Done (f, ge) /\
      typed (object_set m) /\ Forall (fun i => typed (i_marks i)) (infos p gp) /\ NoDup (map i_name (infos p gp)).
    Proof.
      intros I E G. unfold package_object_markers, object_infos in G. rewrite E in G. split; [exact G|]. assert (C := all_compiled p gp I). split; [exact (package_typed fval json_read gs forder vorder forder_perm vorder_perm _ m (cp_files gp C) E)|]. split.
      - apply Forall_forall. intros i Ii. apply in_map_iff in Ii as (d & <- & Id). exact (type_typed fval json_read gs forder vorder forder_perm gp m d C E Id).
      - rewrite map_map. cbn. exact (cp_names gp C).
    Qed.

    (** ** The claims *)
    Hypothesis registered : In GenObject gs.
    Notation copy_due p := (copy_due fval json_read gs (decls p) exported (known_as p)).
    Notation clear_comments := (clear_comments fval json_read gs).

    Section Package.
      Variable p : string.
      Variable gp : gpackage.
      Hypothesis I : In (p, gp) roots.
      Hypothesis L : clear_comments gp.

      Lemma due_said m d : pkg_set (gp_files gp) = Some (inl m) -> In d (gp_decls gp) ->
        (due (decls p) exported (object_set m) (object_info fval json_read gs forder known_as p gp d) <-> copy_due p gp d).
      Proof.
        intros E Id. unfold due, CopiesSpec.copy_due. cbn [object_info i_marks i_name i_type].
        rewrite (type_wanted_iff fval json_read gs forder vorder forder_perm vorder_perm registered gp m (all_compiled p gp I) E L d Id). reflexivity.
      Qed.
      Lemma completes_said m d x : pkg_set (gp_files gp) = Some (inl m) -> In d (gp_decls gp) ->
        (completes (decls p) (object_info fval json_read gs forder known_as p gp d) x <-> supplied fval json_read gs (decls p) gp d x).
      Proof.
        intros E Id. unfold completes. cbn [object_info i_marks i_name]. rewrite (object_wanted_iff fval json_read gs forder vorder forder_perm gp m (all_compiled p gp I) E L d Id).
        split; [intros (A & B & C); constructor; assumption|intros [A B C]; auto].
      Qed.

      (** A type that the comments ask for gets the methods that it does not have. *)
      Theorem copies_written d : ~ In (p, CGen EMarkers) errs -> ~ In (p, COpen) errs -> In d (gp_decls gp) -> copy_due p gp d -> incomplete (decls p) d ->
        exists o m, In o files /\ o_root o = p /\ In (td_name d, m) (f_methods (o_file o)) /\ supplied fval json_read gs (decls p) gp d m.
      Proof.
        intros Ne No Id D Inc. destruct (root_read p gp I Ne) as (m & E). destruct (root_inv p gp I) as (h & f & ge & _ & G & Fi & Er). destruct (run_read p gp m h f ge I E G) as (G' & T & Ti & Nd).
        destruct (methods_given (decls p) exported (home p) letter digit steps rounds torder porder (name_of p) _ _ _ _ torder_perm (all_go p gp I) T Ti Nd f ge G' _ (List.in_map _ _ _ Id) (proj2 (due_said m d E Id) D) Inc) as (x & Ix & Cx).
        destruct f as [f|]; [|destruct Ix]. cbn [methods] in Ix.
        assert (Op : opens p = true). { destruct (opens p) eqn:Op; [reflexivity|]. elim No. apply Er. right; left. split; [reflexivity|]. split; [discriminate|reflexivity]. }
        destruct (proj2 (Fi (mkOutput p "zz_generated.deepcopy.go" (top_text h (gp_name gp)) f (writes p)))) as (Io & Eo); [exists f; auto|].
        eexists _, x. split; [exact Io|]. split; [exact Eo|]. split; [exact Ix|]. apply (completes_said m d x E Id), Cx.
      Qed.
      (** No other methods are written. *)
      Theorem copies_only o n m : In o files -> o_root o = p -> In (n, m) (f_methods (o_file o)) ->
        exists d, In d (gp_decls gp) /\ td_name d = n /\ copy_due p gp d /\ incomplete (decls p) d /\ supplied fval json_read gs (decls p) gp d m.
      Proof.
        intros Io Eo In_. destruct (root_inv p gp I) as (h & f & ge & _ & G & Fi & Er). destruct (proj1 (Fi o) (conj Io Eo)) as (f' & -> & Op & ->). cbn [o_file] in In_.
        assert (X : exists mk, pkg_set (gp_files gp) = Some (inl mk)). { unfold package_object_markers in G. destruct (pkg_set (gp_files gp)) as [[mk|e]|]; [eauto|discriminate G|discriminate G]. }
        destruct X as (mk & E). destruct (run_read p gp mk h _ ge I E G) as (G' & T & Ti & Nd).
        destruct (methods_only (decls p) exported (home p) letter digit steps rounds torder porder (name_of p) _ _ _ _ torder_perm (all_go p gp I) T Ti Nd (Some f') ge G' n m In_) as (i & Ii & En & D & Cx & Inc).
        apply in_map_iff in Ii as (d & <- & Id). cbn [object_info i_name] in En. subst n. exists d. split; [exact Id|]. split; [reflexivity|]. split; [apply (due_said mk d E Id), D|]. split; [exact Inc|]. apply (completes_said mk d m E Id), Cx.
      Qed.
      (** There is a file exactly if some type needs it. *)
      Theorem copies_file : ~ In (p, CGen EMarkers) errs -> ~ In (p, COpen) errs ->
        ((exists o, In o files /\ o_root o = p) <-> exists d, In d (gp_decls gp) /\ copy_due p gp d /\ incomplete (decls p) d).
      Proof.
        intros Ne No. split.
        - intros (o & Io & Eo). destruct (root_read p gp I Ne) as (m & E). destruct (root_inv p gp I) as (h & f & ge & _ & G & Fi & Er). destruct (run_read p gp m h f ge I E G) as (G' & T & Ti & Nd).
          destruct (proj1 (Fi o) (conj Io Eo)) as (f' & -> & Op & _).
          destruct (proj1 (ObjectProps.file_written (decls p) exported (home p) letter digit steps rounds torder porder (name_of p) _ _ _ _ torder_perm (all_go p gp I) T Ti Nd (Some f') ge G')) as (i & Ii & D & Inc); [discriminate|].
          apply in_map_iff in Ii as (d & <- & Id). exists d. split; [exact Id|]. split; [apply (due_said m d E Id), D|exact Inc].
        - intros (d & Id & D & Inc). destruct (copies_written d Ne No Id D Inc) as (o & m & Io & Eo & _). eauto.
      Qed.
      (** A type that is wanted and not known to go/types is an error. *)
      Theorem copies_unknown d : ~ In (p, CGen EMarkers) errs -> In d (gp_decls gp) -> type_wanted fval json_read gs gp d -> exported (td_name d) = true -> known_as p (td_name d) = Unknown ->
        In (p, CGen (EUnknown (td_name d))) errs.
      Proof.
        intros Ne Id Wn Ex Un. destruct (root_read p gp I Ne) as (m & E). destruct (root_inv p gp I) as (h & f & ge & _ & G & Fi & Er). destruct (run_read p gp m h f ge I E G) as (G' & T & Ti & Nd). apply Er. left. eexists. split; [reflexivity|].
        apply (unknown_reported (decls p) exported (home p) letter digit steps rounds torder porder (name_of p) _ _ _ _ T Ti Nd f ge G' _ (List.in_map _ _ _ Id)); [exact Un|exact Ex|].
        apply (type_wanted_iff fval json_read gs forder vorder forder_perm vorder_perm registered gp m (all_compiled p gp I) E L d Id), Wn.
      Qed.

      (** Without errors, and if the comments ask for all types that need methods: the package with the file copies deeply (C28), and compiles (C45). *)
      Lemma quiet_run : (forall e, ~ In (p, e) errs) -> exists m h f, pkg_set (gp_files gp) = Some (inl m) /\ file_of files p = f /\
        generate_for_package (decls p) exported (home p) letter digit steps rounds torder porder (name_of p) (formats p (top_text h (gp_name gp))) (w (gp_name gp)) (Some (object_set m)) (Some (infos p gp)) = Done (f, []) /\
        typed (object_set m) /\ Forall (fun i => typed (i_marks i)) (infos p gp) /\ NoDup (map i_name (infos p gp)).
      Proof.
        intros Q. destruct (root_read p gp I (Q _)) as (m & E). destruct (root_inv p gp I) as (h & f & ge & _ & G & Fi & Er). destruct (run_read p gp m h f ge I E G) as (G' & T & Ti & Nd).
        assert (ge = []) as ->. { destruct ge as [|g ge]; [reflexivity|]. elim (Q (CGen g)). apply Er. left. exists g. split; [reflexivity|now left]. }
        exists m, h, f. split; [exact E|]. split; [|auto]. unfold file_of. destruct (find (fun o => String.eqb (o_root o) p) files) as [o|] eqn:Ef.
        - apply find_some in Ef as (Io & Eo). apply String.eqb_eq in Eo. destruct (proj1 (Fi o) (conj Io Eo)) as (f' & -> & _ & ->). reflexivity.
        - destruct f as [f|]; [|reflexivity]. exfalso. destruct (opens p) eqn:Op.
          + destruct (proj2 (Fi _) (ex_intro _ f (conj eq_refl (conj eq_refl eq_refl)))) as (Io & Eo). assert (X := find_none _ _ Ef _ Io). cbn in X. rewrite String.eqb_refl in X. discriminate.
          + elim (Q COpen). apply Er. right; left. split; [reflexivity|]. split; [discriminate|reflexivity].
      Qed.
      Variable abroad : string -> meths.
      Notation M := (methods_after (decls p) (home p) abroad (file_of files p)).
      Hypothesis quiet : forall e, ~ In (p, e) errs.
      Hypothesis here : forall d, In d (gp_decls gp) -> home p (td_name d) = Local.
      Hypothesis asked : forall n, home p n = Local -> needs_methods (decls p) n -> exists d, In d (gp_decls gp) /\ td_name d = n /\ type_wanted fval json_read gs gp d /\ exported n = true /\ known_as p n = Defined.
      Hypothesis pointers : forall n e, d_under (decls p n) = DeepModel.TPtr e -> has_any (decls p) e = false /\ (is_struct (under (decls p) e) -> flat (decls p) e).
      Lemma asked_infos m : pkg_set (gp_files gp) = Some (inl m) -> forall n, home p n = Local -> needs_methods (decls p) n ->
        exists i, In i (infos p gp) /\ i_name i = n /\ type_asked (object_set m) (i_marks i) /\ exported n = true /\ i_type i = Defined.
      Proof.
        intros E n Hn Ne. destruct (asked n Hn Ne) as (d & Id & <- & Wn & Ex & Kn). exists (object_info fval json_read gs forder known_as p gp d). split; [apply List.in_map, Id|]. split; [reflexivity|]. split; [|auto].
        apply (type_wanted_iff fval json_read gs forder vorder forder_perm vorder_perm registered gp m (all_compiled p gp I) E L d Id), Wn.
      Qed.
      Theorem copies_program zero ord man :
        (forall n, shape (decls p) M (d_under (decls p n))) ->
        (forall n, home p n <> Local -> given M n /\ (needs_methods (decls p) n -> callable (decls p) M n)) ->
        (forall n, (exists q, m_copy (M n) = CopyMan q) \/ m_into (M n) = IntoMan -> copies (decls p) man n) ->
        (forall t, by_ref (under (decls p) t) = true -> zero t = VNil) ->
        (forall kvs, Permutation (ord kvs) kvs) ->
        program (decls p) M zero ord man.
      Proof.
        intros Hs Ha Hm Hz Ho. destruct (quiet_run quiet) as (m & h & f & E & Ef & G & T & Ti & Nd). rewrite Ef in *.
        apply (generated_program (decls p) exported (home p) letter digit steps rounds torder porder (name_of p) _ _ _ _ torder_perm (all_go p gp I) T Ti Nd f [] G abroad eq_refl); try assumption.
        - intros i Ii. apply in_map_iff in Ii as (d & <- & Id). exact (here d Id).
        - exact (asked_infos m E).
      Qed.
      Theorem copies_compile :
        (forall n, cshape (decls p) (d_under (decls p n))) ->
        (forall n, home p n <> Local -> needs_methods (decls p) n -> callable (decls p) M n) ->
        DeepTypes.package (decls p) M /\
        (forall o n m ptr b, In o files -> o_root o = p -> In (n, m) (f_methods (o_file o)) -> w_into m = Some (ptr, b) -> check (decls p) M (start_types n) b = true).
      Proof.
        intros Hs Ha. destruct (quiet_run quiet) as (m & h & f & E & Ef & G & T & Ti & Nd).
        destruct (generated_package (decls p) exported (home p) letter digit steps rounds torder porder (name_of p) _ _ _ _ torder_perm (all_go p gp I) T Ti Nd f [] G abroad eq_refl) as (A & B); try assumption.
        - intros i Ii. apply in_map_iff in Ii as (d & <- & Id). exact (here d Id).
        - exact (asked_infos m E).
        - rewrite <- Ef. exact Ha.
        - rewrite Ef. split; [exact A|]. intros o n x ptr b Io Eo Ix. apply B. destruct (root_inv p gp I) as (h' & f' & ge & _ & _ & Fi & _). destruct (proj1 (Fi o) (conj Io Eo)) as (f0 & Ef0 & Op & Eo').
          assert (f = Some f0) as ->. { rewrite <- Ef. unfold file_of. destruct (find (fun o => String.eqb (o_root o) p) files) as [o1|] eqn:Fd; [|assert (X := find_none _ _ Fd _ Io); cbn in X; rewrite Eo, String.eqb_refl in X; discriminate].
            apply find_some in Fd as (Io1 & Eo1). apply String.eqb_eq in Eo1. destruct (proj1 (Fi o1) (conj Io1 Eo1)) as (f1 & Ef1 & _ & ->). cbn. congruence. }
          cbn [methods]. rewrite Eo' in Ix. exact Ix.
      Qed.
    End Package.

    (** Files are for the roots, at most one for each, with the one name; the text begins with the constraint that leaves it out of the loading, and
        says before the package clause, with the header, that it is generated. *)
    Theorem copies_files o : In o files -> exists gp h, In (o_root o, gp) roots /\ o_name o = "zz_generated.deepcopy.go" /\ opens (o_root o) = true /\
      (forall o', In o' files -> o_root o' = o_root o -> o' = o) /\
      (exists text, header_file = Some (Some text) /\ replaced " YEAR" (" " ++ year) text h \/ header_file = None /\ h = "") /\
      o_top o = ("//go:build !ignore_autogenerated" ++ newline ++ newline ++ h ++ newline ++ newline ++ "// Code generated by controller-gen. DO NOT EDIT." ++ newline ++ newline ++ "package " ++ gp_name gp ++ newline ++ newline)%string /\
      (o_whole o = true \/ In (o_root o, CWrite) errs).
    Proof.
      intros Io. destruct (root_files (o_root o)) as [H|(gp & I)]; [elim (H o Io eq_refl)|]. destruct (root_inv _ gp I) as (h & f & ge & Eh & G & Fi & Er). destruct (proj1 (Fi o) (conj Io eq_refl)) as (f' & Ef & Op & Eo).
      exists gp, h. split; [exact I|]. split; [rewrite Eo; reflexivity|]. split; [exact Op|]. split; [|split; [|split]].
      - intros o' Io' Eo'. destruct (proj1 (Fi o') (conj Io' Eo')) as (f2 & Ef2 & _ & E2). congruence.
      - unfold header_text in Eh. destruct header_file as [[text|]|]; [|discriminate|].
        + exists text. left. split; [reflexivity|]. injection Eh as <-. apply replace_spec; [discriminate|lia].
        + exists "". right. split; [reflexivity|]. injection Eh as <-. reflexivity.
      - rewrite Eo. reflexivity.
      - rewrite Eo at 1. cbn [o_whole]. destruct (writes (o_root o)) eqn:W; [now left|]. right. apply Er. right; right. split; [reflexivity|]. split; [congruence|auto].
    Qed.
    (** A package with an error in its comments has no file, and the error is reported for it. *)
    Theorem copies_error p gp : In (p, gp) roots -> (In (p, CGen EMarkers) errs <-> exists c es, pkg_set (gp_files gp) = Some (inr (c :: es))) /\ (In (p, CGen EMarkers) errs -> forall o, In o files -> o_root o <> p).
    Proof.
      intros I. assert (X : forall m, pkg_set (gp_files gp) = Some (inl m) -> ~ In (p, CGen EMarkers) errs).
      { intros m E Ie. destruct (root_inv p gp I) as (h & f & ge & _ & G & Fi & Er). destruct (run_read p gp m h f ge I E G) as (G' & T & Ti & Nd). apply Er in Ie as [(g & [= <-] & Ig)|[(Ex & _)|(Ex & _)]]; [|discriminate Ex|discriminate Ex].
        destruct (result_inv _ _ _ _ _ _ _ _ _ _ _ _ _ _ T Nd _ _ G') as (al & types & l & r & A & Ty & _ & _ & _ & _ & Ho).
        assert (Nn : ~ In EMarkers (flat_map (errs_of (decls p) exported steps al) (infos p gp))).
        { intros J. apply in_flat_map in J as (i & _ & J). unfold errs_of in J. destruct (enabled_on_type al (i_marks i)) as [[|]| |]; try exact J.
          destruct (fst (should_be_copied (decls p) exported i)).
          - destruct (gen_methods (decls p) steps (i_name i)) as [[gm ds]|]; [|exact J]. apply in_map_iff in J as (e & J & _). discriminate J.
          - unfold should_be_copied in J. destruct (negb (exported (i_name i))); [exact J|]. destruct (i_type i); [destruct J as [J|[]]; discriminate J| |exact J].
            destruct (d_under (decls p (i_name i))); cbn [snd] in J; try exact J; repeat match type of J with context [if ?x then _ else _] => destruct x end; exact J. }
        destruct f as [f|]; [destruct Ho as (_ & _ & _ & e & -> & Ee)|destruct Ho as (_ & ->); exact (Nn Ig)].
        apply in_app_or in Ig as [Ig|Ig]; [exact (Nn Ig)|]. destruct Ee as [->| ->]; cbn in Ig; [destruct Ig|destruct Ig as [Ig|[]]; discriminate Ig]. }
      assert (Cs := source_result fval json_read gs forder vorder forder_perm (gp_files gp) (cp_files gp (all_compiled p gp I))). split; [split|].
      - intros Ie. destruct Cs as [(m & E)|Cs]; [elim (X m E Ie)|exact Cs].
      - intros (c & es & E). destruct (root_inv p gp I) as (h & f & ge & _ & G & Fi & Er). unfold package_object_markers in G. rewrite E in G. cbn in G. injection G as <- <-. apply Er. left. exists EMarkers. split; [reflexivity|now left].
      - intros Ie o Io Eo. destruct Cs as [(m & E)|(c & es & E)]; [elim (X m E Ie)|]. destruct (root_inv p gp I) as (h & f & ge & _ & G & Fi & Er). unfold package_object_markers in G. rewrite E in G. cbn in G. injection G as <- <-.
        destruct (proj1 (Fi o) (conj Io Eo)) as (f' & Ef & _). discriminate Ef.
    Qed.
  End Run.

  (** Generate comes to an end, whatever the comments: it does not panic, and fails only if the header cannot be read. *)
  Theorem copies_end header_file year roots : (forall p gp, In (p, gp) roots -> compiled gp) -> header_file <> Some None ->
    (forall p gp, In (p, gp) roots -> (exists hold follow, grounded (decls p) hold follow) /\ (forall n m, In m (mentions (d_under (decls p n))) -> home p m <> Universe) /\ (forall d, In d (gp_decls gp) -> home p (td_name d) <> Universe)) ->
    exists files errs k, forall steps rounds, k <= steps -> k <= rounds -> generate_copies steps rounds torder porder name_of formats opens writes header_file year roots = CEnded files errs.
  Proof.
    intros Hc Hh Hg. assert (Eh : exists h, header_text header_file year = Some h) by (destruct header_file as [[t|]|]; [cbn; eauto|congruence|cbn; eauto]). destruct Eh as (h & Eh).
    assert (X : exists r k, forall steps rounds, k <= steps -> k <= rounds -> all_roots steps rounds torder porder name_of formats opens writes h roots = Done r).
    { clear Hh Eh. induction roots as [|[p gp] rs IH]; [exists ([], []), 0; reflexivity|].
      destruct IH as ([f2 e2] & k2 & H2); [intros q gq J; apply (Hc q gq); now right|intros q gq J; apply (Hg q gq); now right|].
      assert (Y : exists r k, forall steps rounds, k <= steps -> k <= rounds -> one_root steps rounds torder porder name_of formats opens writes h p gp = Done r).
      { assert (C := Hc p gp (or_introl eq_refl)). destruct (Hg p gp (or_introl eq_refl)) as ((hold & follow & Gr) & Un & Lo). unfold CopiesModel.one_root, package_object_markers, object_infos.
        destruct (pkg_set (gp_files gp)) as [[m|e]|] eqn:E; [|cbn; eexists _, 0; reflexivity|cbn; eexists _, 0; reflexivity].
        destruct (generator_ends (decls p) exported (home p) letter digit hold follow Gr Un torder porder (name_of p) (formats p (top_text h (gp_name gp))) (w (gp_name gp)) (object_set m) (infos p gp)) as ([f ge] & k & H).
        - exact (package_typed fval json_read gs forder vorder forder_perm vorder_perm _ m (cp_files gp C) E).
        - apply Forall_forall. intros i Ii. apply in_map_iff in Ii as (d & <- & Id). split; [exact (type_typed fval json_read gs forder vorder forder_perm gp m d C E Id)|exact (Lo d Id)].
        - eexists. exists k. intros s r Hs Hr. rewrite (H s r Hs Hr). cbn [bind].
          instantiate (1 := match f with None => ([], map (fun e => (p, CGen e)) ge) | Some f => if negb (opens p) then ([], map (fun e => (p, CGen e)) ge ++ [(p, COpen)]) else
            ([mkOutput p "zz_generated.deepcopy.go" (top_text h (gp_name gp)) f (writes p)], map (fun e => (p, CGen e)) ge ++ if writes p then [] else [(p, CWrite)]) end).
          destruct f; [destruct (opens p)|]; reflexivity. }
      destruct Y as ([f1 e1] & k1 & H1). exists (f1 ++ f2, e1 ++ e2), (k1 + k2). intros s r Hs Hr. cbn [CopiesModel.all_roots]. rewrite H1 by lia. cbn [bind]. rewrite H2 by lia. reflexivity. }
    destruct X as ([files errs] & k & H). exists files, errs, k. intros s r Hs Hr. unfold CopiesModel.generate_copies. rewrite Eh, (H s r Hs Hr). reflexivity.
  Qed.
  Theorem copies_failed steps rounds header_file year roots : generate_copies steps rounds torder porder name_of formats opens writes header_file year roots = CFailed <-> header_file = Some None.
  Proof.
    unfold CopiesModel.generate_copies. destruct header_file as [[t|]|]; cbn [header_text]; (split; [|intros X]); try discriminate; try reflexivity; destruct (all_roots _ _ _ _ _ _ _ _ _ roots) as [[f e]| |]; discriminate.
  Qed.
End Claims.
Print Assumptions copies_written.
Print Assumptions copies_only.
Print Assumptions copies_file.
Print Assumptions copies_unknown.
Print Assumptions copies_program.
Print Assumptions copies_compile.
Print Assumptions copies_files.
Print Assumptions copies_error.
Print Assumptions copies_end.
Print Assumptions copies_failed.

(** ** A case

    <<
// +kubebuilder:object:generate=true
package v1

// +kubebuilder:object:root=true
type Can struct { Items []string }
>>
    and a package that does not want copies of its type. *)
From Verif Require OriginProps.
Notation ng := TablesProps.no_floats.
Notation nj := TablesProps.no_json.
Definition jar_type : header := mkHeader 10 CollectModel.KType 105 170 None None.
Definition jar_file (package type : string) : SourceModel.file :=
  SourceModel.mkFile [ mkGroup 20 [mkComment 1 ("// +" ++ package)]; mkGroup 90 [mkComment 4 ("// +" ++ type)] ]
         (mkHeader 1 CollectModel.KFile 40 190 None None)
         [ Node (mkHeader 5 (CollectModel.KDecl false true) 100 170 (Some 90) None)
             [ CollectProps.cg 6 90 99; Node jar_type [ Node (CollectProps.other 11 105 106) []; Node (CollectProps.other 12 107 170) [ Node (CollectProps.other 13 114 170) [] ] ] ] ].
Definition jar_decl : tdecl := mkTDecl 10 "Can" "" [] StructModel.EStruct false false.
Definition jar (package type : string) : gpackage := mkGPackage [jar_file package type] "v1" [jar_decl].
Definition on_text := "kubebuilder:object:generate=true".
Definition off_text := "kubebuilder:object:generate=false".
Definition root_text := "kubebuilder:object:root=true".
Definition jars (text : string) : list (string * gpackage) := [("p", jar on_text text); ("q", jar off_text off_text)].
Definition jar_decls (p : string) : string -> decl := fun n => if String.eqb n "Can" then mkdecl (TStruct [TSlice (TBasic false "string")]) None false else mkdecl (TBasic false "string") None false.
Notation jar_run header text := (generate_copies ng nj [GenObject] (fun _ l => l) (fun l => l) jar_decls (fun _ => true) (fun _ _ => Local) (fun _ _ => Defined) (fun _ => true) (fun _ => true) 100 100
  (fun l => l) (fun l => l) (fun _ _ => None) (fun _ _ _ => true) (fun _ => true) (fun _ => true) header "2024" (jars text)).
Definition jar_files : list output := Eval vm_compute in match jar_run (Some (Some "// Copyright YEAR us.")) root_text with CEnded fs _ => fs | _ => [] end.
Example jar_runs : jar_run (Some (Some "// Copyright YEAR us.")) root_text = CEnded jar_files [] /\
  map (fun o => (o_root o, o_name o, map (fun nm => (fst nm, match w_into (snd nm) with Some _ => true | None => false end, w_copy (snd nm), option_map fst (w_object (snd nm)))) (f_methods (o_file o)))) jar_files =
    [("p", "zz_generated.deepcopy.go", [("Can", true, Some true, Some true)])] /\
  map o_top jar_files = ["//go:build !ignore_autogenerated

// Copyright 2024 us.

// Code generated by controller-gen. DO NOT EDIT.

package v1

"].
Proof. vm_compute. auto. Qed.

Lemma jar_compiled package type : compiled (jar package type).
Proof.
  split.
  - constructor; [|constructor]. split; [reflexivity|]. apply CollectFile.well_formedb_sound. vm_compute. reflexivity.
  - unfold distinct_nodes. vm_compute. repeat constructor; cbn; intuition discriminate.
  - repeat constructor; cbn; tauto.
  - intros d [<-|[]]. exists (jar_file package type). eexists _, _, jar_type, _. split; [now left|]. split; [|auto].
    change (events (jar_file package type)) with (events (jar_file "" "")). instantiate (1 := skipn 7 (events (jar_file "" ""))). instantiate (1 := false). instantiate (1 := firstn 6 (events (jar_file "" ""))). vm_compute. reflexivity.
  - intros d fd [<-|[]] [].
Qed.
Definition jar_texts : list (string * (string * bool)) := [(on_text, (generate_name, true)); (off_text, (generate_name, false)); (root_text, (root_name, true))].
Lemma jar_says text n b : In (text, (n, b)) jar_texts -> says ng nj TBool n text (TvBool b).
Proof.
  assert (B : forall s, ParseSpec.before "" s) by (intros s; split; [apply ParseProofs.spaces_nil|reflexivity]).
  intros [H|[H|[H|[]]]]; injection H as <- <- <-.
  - apply (says_one ng nj TBool generate_name ParseModel.ABool "" "true" (ParseModel.VBool true) false); [reflexivity|constructor|apply B|constructor].
  - apply (says_one ng nj TBool generate_name ParseModel.ABool "" "false" (ParseModel.VBool false) false); [reflexivity|constructor|apply B|constructor].
  - apply (says_one ng nj TBool root_name ParseModel.ABool "" "true" (ParseModel.VBool true) false); [reflexivity|constructor|apply B|constructor].
Qed.
Lemma jar_names text k t n : In text (map fst jar_texts) -> TablesSpec.known [GenObject] k t n -> has_name n text -> exists b, k = TBool /\ In (text, (n, b)) jar_texts.
Proof.
  intros It K H. apply OriginProps.named_prefix in H. apply known_definition in K as (d & Id & <- & <- & <-).
  assert (C : forallb (fun d => forallb (fun e => if has_prefix (d_name d) (fst e) then String.eqb (fst (snd e)) (d_name d) && match p_kind (d_payload d) with TBool => true | _ => false end else true) jar_texts) (definitions [GenObject]) = true) by (vm_compute; reflexivity).
  rewrite forallb_forall in C. specialize (C d Id). rewrite forallb_forall in C. apply in_map_iff in It as ([text' [n b]] & <- & It). specialize (C _ It). cbn [fst snd] in C, H. rewrite H in C.
  apply andb_true_iff in C as (C1 & C3). apply String.eqb_eq in C1. subst n. exists b. split; [destruct (p_kind (d_payload d)); try discriminate C3; reflexivity|exact It].
Qed.
Section Jar.
  Variable package type : string.
  Hypothesis It1 : In package (map fst jar_texts).
  Hypothesis It2 : In type (map fst jar_texts).
  Lemma jar_group c text : (exists g, In g (f_groups (jar_file package type)) /\ In c (g_list g)) -> SourceSpec.comment_is c text -> text = package \/ text = type.
  Proof.
    intros (g & Ig & Ic) C. apply SourceProofs2.comment_is_iff in C as (_ & C). cbn in Ig.
    assert (X : forall i s, In s (map fst jar_texts) -> marker_text (mkMarker (mkComment i ("// +" ++ s)) false) = ("+" ++ text)%string -> text = s).
    { clear. intros i s Is C. cbn in Is. destruct Is as [<-|[<-|[<-|[]]]]; vm_compute in C; injection C as <-; reflexivity. }
    destruct Ig as [<-|[<-|[]]]; destruct Ic as [<-|[]]; [left; exact (X _ _ It1 C)|right; exact (X _ _ It2 C)].
  Qed.
  Lemma jar_node h c : node_comment (jar_file package type) h c -> exists g, In g (f_groups (jar_file package type)) /\ In c (g_list g).
  Proof. intros (g & Ic & [H|H]); exists g; (split; [|exact Ic]); [apply OriginProps.closest_in in H|apply OriginProps.docs_in in H]; exact H. Qed.
  Hypothesis same : forall n b b', In (package, (n, b)) jar_texts -> In (type, (n, b')) jar_texts -> b = b'.
  Lemma jar_clear : clear_comments ng nj [GenObject] (jar package type).
  Proof.
    assert (One : forall text n b b', In (text, (n, b)) jar_texts -> In (text, (n, b')) jar_texts -> b = b').
    { intros text n b b' [H|[H|[H|[]]]] [H'|[H'|[H'|[]]]]; injection H as <- <- <-; try (injection H' as <-; reflexivity); try (vm_compute in H'; discriminate H'). }
    assert (A : forall (comments : CollectModel.comment -> Prop) t, (forall c, comments c -> exists g, In g (f_groups (jar_file package type)) /\ In c (g_list g)) -> all_said ng nj [GenObject] comments t /\ agree ng nj [GenObject] comments t).
    { intros comments t H. split.
      - intros c text k n Cc Ct K Hn. assert (Itx : In text (map fst jar_texts)) by (destruct (jar_group c text (H c Cc) Ct) as [->| ->]; assumption). destruct (jar_names text k t n Itx K Hn) as (b & -> & I). exists (TvBool b). exact (jar_says text n b I).
      - assert (V : forall n u, said ng nj [GenObject] comments t n u -> exists text b, (text = package \/ text = type) /\ In (text, (n, b)) jar_texts /\ u = TvBool b).
        { intros n u (k & c & text & Cc & Ct & K & S). assert (Ed := jar_group c text (H c Cc) Ct). assert (Itx : In text (map fst jar_texts)) by (destruct Ed as [->| ->]; assumption).
          assert (Hn : has_name n text). { destruct (value_found ng nj [GenObject] t n u (mkMarker c false)) as (k' & _ & _ & ch & Q); [rewrite (proj1 (comment_read ng nj [GenObject] k t n text u (mkMarker c false) K S Ct)); now left|].
            apply SourceProofs2.comment_is_iff in Ct as (_ & Ct). rewrite Ct in Q. destruct Q as [E|[(rest & E)|(x & rest & E & Hb)]]; injection E as _ E; [left; exact E|right; left; exists rest; exact E|right; right; exists x, rest; auto]. }
          destruct (jar_names text k t n Itx K Hn) as (b & -> & I). exists text, b. split; [exact Ed|]. split; [exact I|].
          assert (E1 := proj1 (comment_read ng nj [GenObject] TBool t n text u (mkMarker c false) K S Ct)). assert (E2 := proj1 (comment_read ng nj [GenObject] TBool t n text (TvBool b) (mkMarker c false) K (jar_says text n b I) Ct)). congruence. }
        intros n u v _ Su Sv. destruct (V n u Su) as (t1 & b1 & E1 & I1 & ->), (V n v Sv) as (t2 & b2 & E2 & I2 & ->). f_equal.
        destruct E1 as [->| ->], E2 as [->| ->]; [exact (One _ _ _ _ I1 I2)|exact (same _ _ _ I1 I2)|symmetry; exact (same _ _ _ I2 I1)|exact (One _ _ _ _ I1 I2)]. }
    assert (P1 : forall c, package_only_comment (gp_files (jar package type)) c -> exists g, In g (f_groups (jar_file package type)) /\ In c (g_list g)) by (intros c (f & g & [<-|[]] & Ig & Ic & _); eauto).
    assert (P2 : forall d c, spec_comment (jar package type) (td_node d) c -> exists g, In g (f_groups (jar_file package type)) /\ In c (g_list g)) by (intros d c (f & bef & top & h & aft & [<-|[]] & _ & _ & _ & [N|(d' & _ & N)]); exact (jar_node _ c N)).
    constructor; [apply A, P1|intros d _; apply A, P2|apply A, P1|intros d _; apply A, P2].
  Qed.
End Jar.
Example jars_clear p gp : In (p, gp) (jars root_text) -> clear_comments ng nj [GenObject] gp.
Proof.
  assert (D : forall package type, forallb (fun e => forallb (fun e' => if String.eqb (fst e) package && (String.eqb (fst e') type && String.eqb (fst (snd e)) (fst (snd e'))) then Bool.eqb (snd (snd e)) (snd (snd e')) else true) jar_texts) jar_texts = true ->
    forall n b b', In (package, (n, b)) jar_texts -> In (type, (n, b')) jar_texts -> b = b').
  { clear. intros package type D n b b' I I'. rewrite forallb_forall in D. specialize (D _ I). rewrite forallb_forall in D. specialize (D _ I'). cbn [fst snd] in D. rewrite !String.eqb_refl in D. apply eqb_prop, D. }
  intros [[= <- <-]|[[= <- <-]|[]]]; (apply jar_clear; [cbn; tauto|cbn; tauto|]); apply D; vm_compute; reflexivity.
Qed.
Example jar_wanted : package_wanted ng nj [GenObject] (jar on_text root_text) /\ object_wanted ng nj [GenObject] (jar on_text root_text) jar_decl /\ copy_due ng nj [GenObject] (jar_decls "p") (fun _ => true) (fun _ => Defined) (jar on_text root_text) jar_decl.
Proof.
  assert (L := jars_clear "p" (jar on_text root_text) (or_introl eq_refl)). assert (C := jar_compiled on_text root_text).
  assert (E : exists m, package_set ng nj [GenObject] (fun _ l => l) (fun l => l) (gp_files (jar on_text root_text)) = Some (inl m) /\ m = [(generate_name, [TvBool true])]) by (eexists; split; vm_compute; reflexivity). destruct E as (m & E & Em).
  assert (Mt : marks ng nj [GenObject] (fun _ l => l) (jar on_text root_text) 10 = [(root_name, [TvBool true])]) by (vm_compute; reflexivity).
  assert (P : package_wanted ng nj [GenObject] (jar on_text root_text)).
  { apply (package_wanted_iff ng nj [GenObject] (fun _ l => l) (fun l => l) (fun _ l => Permutation_refl l) (fun l => Permutation_refl l) (or_introl eq_refl) _ m C E L). rewrite Em. left. exists []. now left. }
  assert (O : object_wanted ng nj [GenObject] (jar on_text root_text) jar_decl).
  { apply (object_wanted_iff ng nj [GenObject] (fun _ l => l) (fun l => l) (fun _ l => Permutation_refl l) _ m C E L jar_decl (or_introl eq_refl)). cbn [td_node jar_decl]. rewrite Mt. left. exists []. now left. }
  split; [exact P|]. split; [exact O|]. split; [|vm_compute; auto].
  apply (type_wanted_iff ng nj [GenObject] (fun _ l => l) (fun l => l) (fun _ l => Permutation_refl l) (fun l => Permutation_refl l) (or_introl eq_refl) _ m C E L jar_decl (or_introl eq_refl)). cbn [td_node jar_decl]. rewrite Mt, Em.
  right; right. split; [|split]; [intros l [H|[]]; vm_compute in H; discriminate H|intros l [H|[]]; vm_compute in H; discriminate H|]. left. left. exists []. now left.
Qed.

(** One wrong comment, at one type, takes away the file of its package, with the methods that are due for the other types. Only the package has an error:
    Generate has none. *)
Definition bottle_type : header := mkHeader 30 CollectModel.KType 205 270 None None.
Definition bottle_file (package type other : string) : SourceModel.file :=
  SourceModel.mkFile [ mkGroup 20 [mkComment 1 ("// +" ++ package)]; mkGroup 90 [mkComment 4 ("// +" ++ type)]; mkGroup 190 [mkComment 8 ("// +" ++ other)] ]
         (mkHeader 1 CollectModel.KFile 40 290 None None)
         [ Node (mkHeader 5 (CollectModel.KDecl false true) 100 170 (Some 90) None)
             [ CollectProps.cg 6 90 99; Node jar_type [ Node (CollectProps.other 11 105 106) [] ] ];
           Node (mkHeader 25 (CollectModel.KDecl false true) 200 270 (Some 190) None)
             [ CollectProps.cg 26 190 199; Node bottle_type [ Node (CollectProps.other 31 205 206) [] ] ] ].
Definition bottle (other : string) : gpackage := mkGPackage [bottle_file on_text root_text other] "v1" [jar_decl; mkTDecl 30 "Bottle" "" [] StructModel.EStruct false false].
Notation bottle_run other := (generate_copies ng nj [GenObject] (fun _ l => l) (fun l => l) jar_decls (fun _ => true) (fun _ _ => Local) (fun _ _ => Defined) (fun _ => true) (fun _ => true) 100 100
  (fun l => l) (fun l => l) (fun _ _ => None) (fun _ _ _ => true) (fun _ => true) (fun _ => true) None "2024" [("p", bottle other); ("q", jar on_text root_text)]).
Theorem copies_spare_refuted :
  match bottle_run off_text with CEnded files errs => map (fun o => (o_root o, map fst (f_methods (o_file o)))) files = [("p", ["Can"]); ("q", ["Can"])] /\ errs = [] | _ => False end /\
  match bottle_run "kubebuilder:object:generate=perhaps" with CEnded files errs => map (fun o => (o_root o, map fst (f_methods (o_file o)))) files = [("q", ["Can"])] /\ errs = [("p", CGen EMarkers)] | _ => False end.
Proof. vm_compute. auto. Qed.
Print Assumptions copies_spare_refuted.
