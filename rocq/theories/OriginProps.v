(** * C64: the CRDs written accept what the comments and types of the sources say *)
From Coq Require Import List String Ascii Bool Arith ZArith NArith QArith Permutation Relations Lia.
From Verif Require Import GoLib GoLibFacts MapFacts DocModel SchemaModel SchemaFacts RefModel ErrorsModel ValidSpec MarkModel MarkSpec StructModel FlattenModel NeedModel FlattenSpec StructSpec StructProofs DescModel
  CrdModel CrdSpec CrdProofs4 CrdProps EmitModel EmitSpec EmitProps WholeModel WholeSpec WholeProofs WholeProps RegistryModel CollectModel CollectSpec
  TablesModel TablesSpec TablesProofs SourceModel SourceSpec OriginModel OriginSpec OriginProofs OriginProofs2.
Import ListNotations.
Open Scope string_scope.
Open Scope list_scope.
Open Scope nat_scope.

Lemma name_kind gs k n : In n ["groupName"; "versionName"] -> known gs k DescribesPackage n -> k = TText.
Proof.
  intros I K. apply known_definition in K as (d & Id & _ & En & <-).
  pose proof (tables_checked (fun d => if mem_str (d_name d) ["groupName"; "versionName"] then match p_kind (d_payload d) with TText => true | _ => false end else true) ltac:(vm_compute; reflexivity) gs d Id) as H.
  cbv beta in H. rewrite En, (proj2 (mem_str_spec n _) I) in H. destruct (p_kind (d_payload d)); try discriminate H; reflexivity.
Qed.
Lemma of_crd_set m n vs : In (n, vs) (crd_set m) -> exists l, In (n, l) m /\ vs = map crd_value l.
Proof. unfold crd_set. intros I. apply in_map_iff in I as ([n' l] & [= <- <-] & I). exists l. auto. Qed.
Definition name_of_ckind (k : ckind) : string :=
  match k with
  | KStatus => "kubebuilder:subresource:status" | KScale => "kubebuilder:subresource:scale" | KColumn => "kubebuilder:printcolumn" | KResource => "kubebuilder:resource" | KStorage => "kubebuilder:storageversion"
  | KSkip => "kubebuilder:skipversion" | KUnserved => "kubebuilder:unservedversion" | KDeprecated => "kubebuilder:deprecatedversion" | KMetadata => "kubebuilder:metadata" | KSelectable => "kubebuilder:selectablefield" | CrdSpec.KOther => ""
  end.
Lemma crd_value_named gs v k n : value_kind v = Some k -> known gs k DescribesType n -> ckind_of (crd_value v) <> CrdSpec.KOther -> n = name_of_ckind (ckind_of (crd_value v)).
Proof.
  intros V K Ne. destruct v as [m|c|r|h|w|s|b|s| |]; try (exfalso; apply Ne; reflexivity). cbn in V |- *.
  destruct c; try (exfalso; apply Ne; reflexivity); injection V as <-; exact (crd_named gs _ n _ K eq_refl).
Qed.

Section Origin.
  Variable fval : string -> option Q.
  Variable json_read : string -> option json.
  Variable gs : list generator.
  Variable forder : file -> list (nat * list marker) -> list (nat * list marker).
  Variable vorder : list (string * list tvalue) -> list (string * list tvalue).
  Variable srcs : list (string * gpackage).
  Variable imports : string -> string -> bool.
  Variable metav1 : string.
  Variable order : marker_values -> marker_values.
  Variable sorted : list (string * smarker) -> list (string * smarker).
  Variable allow_dangerous ignore_unexported : bool.
  Variable presets : string -> list (string * schema).
  Variable ord : list string -> list string.
  Variable is_sterm is_space : N -> bool.
  Variable fuel : nat.
  Variable max_desc : option Z.
  Variable pluralize lower : string -> string.
  Variable gv_order : list (string * (string * string)) -> list (string * (string * string)).
  Variable m_order : cmarkers -> cmarkers.
  Variable v_sort : list version -> list version.
  Variable tool_version : string.
  Variable t_order : list ((string * string) * list string) -> list ((string * string) * list string).
  Variable k_order k_sort : list (string * string) -> list (string * string).
  Variable O : oracles.
  Hypothesis forder_perm : forall f l, Permutation (forder f l) l.
  Hypothesis vorder_perm : forall l, Permutation (vorder l) l.
  Hypothesis order_ok : is_order order.
  Hypothesis sorted_ok : sorts sorted.
  Hypothesis ord_ok : is_order ord.
  Hypothesis presets_are_maps : forall p, NoDup (map fst (presets p)).
  Hypothesis Hg : is_order gv_order.
  Hypothesis Hm : is_order m_order.
  Hypothesis Hv : sorts_by (fun a b => str_ltb (v_name a) (v_name b)) v_sort.
  Hypothesis Ht : is_order t_order.
  Hypothesis Hk : is_order k_order.
  Hypothesis Hs : sorts_by (fun a b => str_ltb (gk_string a) (gk_string b)) k_sort.
  Hypothesis srcs_nodup : NoDup (map fst srcs).
  Hypothesis srcs_compiled : forall p gp, In (p, gp) srcs -> compiled gp.
  Notation indexed := (indexed fval json_read gs forder vorder).
  Notation package_marks := (package_marks fval json_read gs forder vorder).
  Notation marks := (marks fval json_read gs forder).
  Notation types := (source_types fval json_read gs forder vorder srcs).
  Notation pkg_markers := (source_pkg_markers fval json_read gs forder vorder srcs).
  Notation crd_markers := (source_crd_markers fval json_read gs forder vorder srcs).
  Notation groups := (source_groups fval json_read gs forder vorder srcs).
  Notation embedded := (source_embedded fval json_read gs forder vorder srcs imports metav1).
  Notation run := (run_sources fval json_read gs forder vorder srcs imports metav1 order sorted allow_dangerous ignore_unexported presets ord is_sterm is_space fuel max_desc pluralize lower gv_order m_order v_sort
    tool_version t_order k_order k_sort).
  Notation tame := (tame order sorted allow_dangerous ignore_unexported imports pkg_markers types presets).
  Notation schema_of_type := (schema_of_type order sorted allow_dangerous ignore_unexported imports pkg_markers types presets ord is_sterm is_space fuel max_desc).
  Notation conforms := (conforms O ignore_unexported).
  Notation said := (said fval json_read gs).

  Lemma groups_in p g v : In (p, (g, v)) groups <-> exists gp, In (p, gp) srcs /\ group_version fval json_read gs forder vorder gp = Some (g, v).
  Proof.
    unfold source_groups. rewrite in_flat_map. split.
    - intros ([p' gp] & I & H). cbn [fst snd] in H. destruct (group_version _ _ _ _ _ gp) as [gv|] eqn:E; [|destruct H]. destruct H as [H|[]]. injection H as -> ->. exists gp. auto.
    - intros (gp & I & E). exists (p, gp). split; [exact I|]. cbn [fst snd]. rewrite E. now left.
  Qed.
  Lemma groups_nodup : NoDup (map fst groups).
  Proof.
    unfold source_groups. clear -srcs_nodup. induction srcs as [|[p gp] l IH]; [constructor|]. cbn in srcs_nodup |- *. inversion srcs_nodup as [|? ? N Nl]; subst. rewrite map_app.
    destruct (group_version _ _ _ _ _ gp) as [gv|]; [|exact (IH Nl)]. cbn. constructor; [|exact (IH Nl)]. intros I. apply N. apply in_map_iff in I as ([p' x] & E & I). cbn in E. subst p'. apply in_flat_map in I as ([p' gp'] & I & H).
    cbn [fst snd] in H. destruct (group_version _ _ _ _ _ gp'); [|destruct H]. destruct H as [[= -> _]|[]]. apply in_map_iff. exists (p, gp'). auto.
  Qed.
  Lemma group_indexed gp gv : group_version fval json_read gs forder vorder gp = Some gv -> indexed gp = true.
  Proof. unfold group_version. destruct (indexed gp); [reflexivity|discriminate]. Qed.
  Lemma sources_registered g k : all_registered groups (marked_types types crd_markers) g k.
  Proof.
    intros p n ms (_ & E). unfold marked_types in E. destruct (types (p, k)) as [ti|] eqn:T; [|discriminate]. injection E as <-.
    apply (types_iff fval json_read gs forder vorder srcs srcs_nodup srcs_compiled) in T as (gp & d & Ip & X & Id & En & _). cbn in Ip, En. pose proof (srcs_compiled p gp Ip) as C.
    unfold source_crd_markers. cbn [fst snd]. rewrite (MapFacts.in_mget _ _ String.eqb String.eqb_eq _ _ _ srcs_nodup Ip). unfold find_type. rewrite X, <- En, (find_last gp d C Id).
    pose proof (spec_nodup fval json_read gs forder vorder forder_perm gp d C X Id) as N. split; [unfold crd_set; rewrite map_map; exact N|].
    assert (Nm : forall a vs m, In (a, vs) (crd_set (marks gp (td_node d))) -> In m vs -> ckind_of m <> CrdSpec.KOther -> a = name_of_ckind (ckind_of m)).
    { intros a vs m I Im Ne. apply of_crd_set in I as (l & I & ->). apply in_map_iff in Im as (v & <- & Iv).
      destruct (spec_found fval json_read gs forder vorder forder_perm gp d a v C X Id) as (c & text & kd & _ & _ & _ & Vk & Kn); [apply name_in; exists l; split; [apply (MapFacts.in_mget _ _ String.eqb String.eqb_eq _ _ _ N I)|exact Iv]|].
      exact (crd_value_named gs v kd a Vk Kn Ne). }
    intros a vs m a' vs' m' I Im I' Im' Ek Ne. rewrite (Nm a vs m I Im Ne). rewrite Ek. symmetry. apply (Nm a' vs' m' I' Im'). congruence.
  Qed.
  Hypothesis one_package : forall p q gv, In (p, gv) groups -> In (q, gv) groups -> p = q.

  Lemma sources_values vers w es f x y : run vers = WDone w false es [] -> In (f, x) w -> In y (c_versions x) ->
    exists p, In (p, (c_group x, v_name y)) groups /\ types (p, n_kind (c_names x)) <> None /\
      forall rank, tame (p, n_kind (c_names x)) rank -> unmixed (schema_of_type (p, n_kind (c_names x))) ->
        accepts_values (valid O (v_schema y)) (conforms pkg_markers types presets (p, n_kind (c_names x))).
  Proof.
    intros R If Iy. destruct (run_values order sorted allow_dangerous ignore_unexported imports pkg_markers types presets ord is_sterm is_space fuel max_desc crd_markers pluralize lower gv_order m_order v_sort
      groups tool_version t_order embedded k_order k_sort O order_ok sorted_ok ord_ok presets_are_maps Hg Hm Hv Ht Hk Hs groups_nodup vers w es f x y) as (p & A & B & _ & D); [|exact R|exact If|exact Iy|exists p; auto].
    intros g k _. split; [|apply sources_registered]. intros p ms p' ms' n (I & _) (I' & _). exact (one_package p p' _ I I').
  Qed.

  (** If nothing is reported, every value that a CRD accepts obeys the comments at the types and fields, through and through.
      Of values with metadata: if that is the metadata of some value of the type. *)
  Theorem origin_enforced vers w es f x y : run vers = WDone w false es [] -> In (f, x) w -> In y (c_versions x) ->
    exists p, In (p, (c_group x, v_name y)) groups /\
      forall rank, tame (p, n_kind (c_names x)) rank -> unmixed (schema_of_type (p, n_kind (c_names x))) ->
        forall v, null_free v = true -> valid O (v_schema y) v = true ->
          (forall m, metadata v = Some m -> exists u, null_free u = true /\ conforms pkg_markers types presets (p, n_kind (c_names x)) u /\ metadata u = Some m) ->
          obeys ignore_unexported presets srcs fval json_read gs O (p, n_kind (c_names x)) v.
  Proof.
    intros R If Iy. destruct (sources_values vers w es f x y R If Iy) as (p & I & _ & A). exists p. split; [exact I|]. intros rank T U v N V M. destruct (A rank T U v N) as (_ & H).
    apply (conforms_obeys fval json_read gs forder vorder forder_perm vorder_perm srcs srcs_nodup srcs_compiled O ignore_unexported presets). exact (H V M).
  Qed.

  (** ** If no comment is wrong *)
  Section Right.
    Hypothesis no_errors : comment_errors fval json_read gs forder vorder srcs = [].
    Hypothesis all_well : forall p gp, In (p, gp) srcs -> well_said fval json_read gs gp.

    Lemma text_value p gp n v : In (p, gp) srcs -> In n ["groupName"; "versionName"] -> In v (of_name (package_marks gp) n) -> exists s, v = TvText s.
    Proof.
      intros I In_ Iv. pose proof (package_fine fval json_read gs forder vorder forder_perm srcs srcs_compiled no_errors p gp I) as P.
      assert (Nt : forall k, ~ known gs k DescribesType n) by (apply not_at_types; destruct In_ as [<-|[<-|[]]]; cbn; tauto).
      destruct (SourceProps.source_package_sound fval json_read gs forder vorder forder_perm vorder_perm _ _ n v (cp_files gp (srcs_compiled p gp I)) P Nt Iv) as (c & text & k & _ & _ & _ & Vk & Kn).
      apply (name_kind gs k n In_) in Kn. subst k. destruct v as [m|c'|r|h|w|s|b|s| |]; try discriminate Vk; [destruct m; discriminate Vk|destruct c'; discriminate Vk|eauto].
    Qed.
    (** The groups and versions are those that the comments say. *)
    Theorem origin_groups p g v :
      (In (p, (g, v)) groups -> exists gp, In (p, gp) srcs /\ ~ left_out fval json_read gs gp /\ placed fval json_read gs gp g v) /\
      (forall gp, In (p, gp) srcs -> ~ left_out fval json_read gs gp -> placed fval json_read gs gp g v ->
        (forall n u u', In n ["groupName"; "versionName"] -> said (package_comment (gp_files gp)) DescribesPackage n u -> said (package_comment (gp_files gp)) DescribesPackage n u' -> u = u') -> In (p, (g, v)) groups).
    Proof.
      assert (Ng : forall k, ~ known gs k DescribesType "groupName") by (apply not_at_types; cbn; tauto). assert (Nv : forall k, ~ known gs k DescribesType "versionName") by (apply not_at_types; cbn; tauto).
      assert (X : forall gp n u, In (p, gp) srcs -> (forall k, ~ known gs k DescribesType n) -> (In u (of_name (package_marks gp) n) <-> said (package_comment (gp_files gp)) DescribesPackage n u))
        by (intros gp n u I N; exact (package_exact' fval json_read gs forder vorder forder_perm vorder_perm srcs srcs_compiled no_errors all_well p gp n u I N)).
      pose proof (indexed_iff fval json_read gs forder vorder forder_perm vorder_perm srcs srcs_compiled no_errors all_well p) as Ix. split.
      - intros H. apply groups_in in H as (gp & I & E). exists gp. split; [exact I|]. split; [apply (Ix gp I), (group_indexed gp _ E)|]. unfold group_version in E. destruct (indexed gp); [|discriminate].
        destruct (of_name (package_marks gp) "groupName") as [|[m|c|r|h|w|s|b|s| |] lg] eqn:Eg; try discriminate. unfold placed.
        assert (Sg : forall g', s = g' -> said (package_comment (gp_files gp)) DescribesPackage "groupName" (TvText g')) by (intros g' <-; apply (X gp _ _ I Ng); rewrite Eg; now left).
        destruct (of_name (package_marks gp) "versionName") as [|[m|c|r|h|w|s'|b|s'| |] lv] eqn:Ev; try discriminate; injection E as E1 E2; (split; [exact (Sg g E1)|]).
        + right. split; [auto|]. intros u S. apply (X gp _ _ I Nv) in S. rewrite Ev in S. destruct S.
        + left. subst s'. apply (X gp _ _ I Nv). rewrite Ev. now left.
      - intros gp I L (Sg & Sv) U. apply groups_in. exists gp. split; [exact I|]. unfold group_version. rewrite (proj2 (Ix gp I) L).
        destruct (of_name (package_marks gp) "groupName") as [|ug lg] eqn:Eg; [apply (X gp _ _ I Ng) in Sg; rewrite Eg in Sg; destruct Sg|].
        assert (ug = TvText g) as -> by (apply (U "groupName"); [cbn; tauto|apply (X gp _ _ I Ng); rewrite Eg; now left|exact Sg]).
        destruct Sv as [Sv|(-> & Nsv)].
        + destruct (of_name (package_marks gp) "versionName") as [|uv lv] eqn:Ev; [apply (X gp _ _ I Nv) in Sv; rewrite Ev in Sv; destruct Sv|].
          assert (uv = TvText v) as -> by (apply (U "versionName"); [cbn; tauto|apply (X gp _ _ I Nv); rewrite Ev; now left|exact Sv]). reflexivity.
        + destruct (of_name (package_marks gp) "versionName") as [|uv lv] eqn:Ev; [reflexivity|]. exfalso. apply (Nsv uv). apply (X gp _ _ I Nv). rewrite Ev. now left.
    Qed.
    (** The schemas accept exactly the values of the type, by any reading of the comments. *)
    Theorem origin_values vers w es f x y types' pkg' : reads fval json_read gs srcs types' pkg' ->
      run vers = WDone w false es [] -> In (f, x) w -> In y (c_versions x) ->
      exists p gp d, In (p, gp) srcs /\ In d (gp_decls gp) /\ td_name d = n_kind (c_names x) /\ placed fval json_read gs gp (c_group x) (v_name y) /\
        forall rank, tame (p, n_kind (c_names x)) rank -> unmixed (schema_of_type (p, n_kind (c_names x))) ->
          accepts_values (valid O (v_schema y)) (conforms pkg' types' presets (p, n_kind (c_names x))).
    Proof.
      intros Rd R If Iy. destruct (sources_values vers w es f x y R If Iy) as (p & I & T & A). destruct (proj1 (origin_groups p (c_group x) (v_name y)) I) as (gp & Ip & _ & Pl).
      destruct (types (p, n_kind (c_names x))) as [ti|] eqn:E; [|congruence]. apply (types_iff fval json_read gs forder vorder srcs srcs_nodup srcs_compiled) in E as (gp' & d & Ip' & _ & Id & En & _). cbn [fst snd] in Ip', En.
      pose proof (one_source srcs srcs_nodup p gp gp' Ip Ip') as <-. exists p, gp, d. repeat (split; [assumption|]). intros rank Tm U. specialize (A rank Tm U).
      pose proof (tables_read fval json_read gs forder vorder forder_perm vorder_perm srcs srcs_nodup srcs_compiled no_errors all_well) as Tr.
      pose proof (reads_values fval json_read gs srcs types types' pkg_markers pkg' O ignore_unexported presets srcs_nodup Tr Rd) as S.
      intros v N. destruct (A v N) as (A1 & A2). split.
      - intros C. apply A1, S, C.
      - intros V M. apply S. apply A2; [exact V|]. intros m Em. destruct (M m Em) as (u & Nu & Cu & Eu). exists u. split; [exact Nu|]. split; [apply S, Cu|exact Eu].
    Qed.
  End Right.

  (** Every type that embeds TypeMeta and ObjectMeta, of a package with group and version, is in a CRD with that version, unless a comment says otherwise. *)
  Theorem origin_complete vers w es rep p g v gp d : run vers = WDone w false es rep -> In (p, (g, v)) groups -> In (p, gp) srcs -> In d (gp_decls gp) ->
    embeds imports metav1 p d "TypeMeta" -> embeds imports metav1 p d "ObjectMeta" ->
    not_marked gp d "kubebuilder:skipversion" ->
    exists f x y, In (f, x) w /\ c_group x = g /\ n_kind (c_names x) = td_name d /\ In y (c_versions x) /\ v_name y = v.
  Proof.
    intros R G Ip Id Et Eo Ns. pose proof (srcs_compiled p gp Ip) as C. assert (X : indexed gp = true).
    { apply groups_in in G as (gp' & Ip' & E). pose proof (one_source srcs srcs_nodup p gp gp' Ip Ip') as <-. exact (group_indexed gp _ E). }
    apply (run_complete order sorted allow_dangerous ignore_unexported imports pkg_markers types presets ord is_sterm is_space fuel max_desc crd_markers pluralize lower gv_order m_order v_sort
      groups tool_version t_order embedded k_order k_sort Hg Hm Hv Ht Hk Hs vers w es rep g (td_name d) v R).
    - assert (Em : forall n, embeds imports metav1 p d n -> In n (metav1_names imports metav1 p d)).
      { intros n (fd & q & u & I & E1 & E2 & E3 & E4). unfold metav1_names. apply in_flat_map. exists fd. split; [exact I|]. rewrite E1, E2, E3, E4, !String.eqb_refl. now left. }
      exists p, (metav1_names imports metav1 p d). split; [|split; [apply Em, Eo|split; [apply Em, Et|]]].
      + unfold source_embedded. apply in_flat_map. exists (p, gp). split; [exact Ip|]. cbn [fst snd]. rewrite X. apply in_map_iff. exists d. auto.
      + left. exists v. apply (MapFacts.in_mget _ _ String.eqb String.eqb_eq _ _ _ groups_nodup G).
    - assert (T : types (p, td_name d) = Some (type_info fval json_read gs forder gp d)) by (apply (types_iff fval json_read gs forder vorder srcs srcs_nodup srcs_compiled); exists gp, d; auto). split.
      + exists p, (crd_markers (p, td_name d)). split; [exact G|]. unfold marked_types. rewrite T. reflexivity.
      + intros (_ & q & ms & a & vs & (Iq & E) & I & Ic). pose proof (one_package q p _ Iq G) as ->. unfold marked_types in E. rewrite T in E. injection E as <-.
        unfold source_crd_markers in I. cbn [fst snd] in I. rewrite (MapFacts.in_mget _ _ String.eqb String.eqb_eq _ _ _ srcs_nodup Ip) in I. unfold find_type in I. rewrite X, (find_last gp d C Id) in I.
        apply of_crd_set in I as (l & I & ->). apply in_map_iff in Ic as (u & Eu & Iu). pose proof (spec_nodup fval json_read gs forder vorder forder_perm gp d C X Id) as N.
        destruct (spec_found fval json_read gs forder vorder forder_perm gp d a u C X Id) as (c & text & kd & Sc & Ct & Hn & Vk & Kn); [apply name_in; exists l; split; [apply (MapFacts.in_mget _ _ String.eqb String.eqb_eq _ _ _ N I)|exact Iu]|].
        assert (a = "kubebuilder:skipversion") as -> by (rewrite (crd_value_named gs u kd a Vk Kn); rewrite Eu; [reflexivity|discriminate]). exact (Ns c text Sc Ct Hn).
  Qed.
End Origin.
Print Assumptions origin_enforced.
Print Assumptions origin_groups.
Print Assumptions origin_values.
Print Assumptions origin_complete.

(** ** A package
<<
// +groupName=`g`

package v1

// +kubebuilder:storageversion
type Can struct {
	metav1.TypeMeta   `json:",inline"`
	metav1.ObjectMeta `json:"metadata,omitempty"`
	// +kubebuilder:validation:MaxLength=3
	Size string `json:"size"`
}
>> *)
Definition size_text : string := "kubebuilder:validation:MaxLength=3".
Definition can_size : header := mkHeader 15 CollectModel.KField 140 145 (Some 130) None.
Definition can_type : header := mkHeader 10 CollectModel.KType 105 170 None None.
Definition can_file (size : string) : file :=
  mkFile [ mkGroup 20 [mkComment 1 "// +groupName=`g`"]; mkGroup 90 [mkComment 4 "// +kubebuilder:storageversion"]; mkGroup 130 [mkComment 5 ("// +" ++ size)] ]
         (mkHeader 1 CollectModel.KFile 40 190 None None)
         [ Node (mkHeader 5 (CollectModel.KDecl false true) 100 170 (Some 90) None)
             [ CollectProps.cg 6 90 99;
               Node can_type
                 [ Node (CollectProps.other 11 105 106) [];
                   Node (CollectProps.other 12 107 170)
                     [ Node (CollectProps.other 13 114 170)
                        [ Node (mkHeader 20 CollectModel.KField 116 120 None None) [ Node (CollectProps.other 21 116 120) [] ]; Node (mkHeader 22 CollectModel.KField 122 126 None None) [ Node (CollectProps.other 23 122 126) [] ];
                          Node can_size [ CollectProps.cg 16 130 139; Node (CollectProps.other 18 140 141) [] ] ] ] ] ] ].
Definition can_field : dfield := mkDField 15 "Size" true "" (Some "size") str_e.
Definition can_decl : tdecl := mkTDecl 10 "Can" ""
  [ mkDField 20 "" true "" (Some ",inline") (ESel (TNamed (OPkg "meta") "TypeMeta" TOther)); mkDField 22 "" true "" (Some "metadata,omitempty") (ESel (TNamed (OPkg "meta") "ObjectMeta" TOther)); can_field ] EStruct false false.
Definition can_package (size : string) : gpackage := mkGPackage [can_file size] "v1" [can_decl].
Definition can_srcs (size : string) : list (string * gpackage) := [("p", can_package size)].
Definition can_presets (p : string) : list (string * schema) := if String.eqb p "meta" then [("TypeMeta", set_type schema0 "object"); ("ObjectMeta", set_type schema0 "object")] else [].
Notation ng := TablesProps.no_floats.
Notation nj := TablesProps.no_json.
Notation can_run size := (run_sources ng nj [GenCrd] (fun _ l => l) (fun l => l) (can_srcs size) box_imports "meta" (fun l => l) MarkProps.stable false true can_presets (fun l => l) (fun c => N.eqb c 46) (fun c => N.eqb c 32) 100 None
  (fun s => s) (fun s => s) (fun l => l) (fun l => l) by_name "v0" (fun l => l) (fun l => l) by_kind []).
Definition can_written : list (string * crd) := Eval vm_compute in match can_run size_text with WDone w _ _ _ => w | _ => [] end.
Definition can_schema : schema := match can_written with [(_, c)] => match c_versions c with [v] => v_schema v | _ => schema0 end | _ => schema0 end.
Example can_runs : can_run size_text = WDone can_written false [] [] /\ map fst can_written = ["g_Can.yaml"] /\ map (fun fc => map v_name (c_versions (snd fc))) can_written = [["v1"]] /\
  comment_errors ng nj [GenCrd] (fun _ l => l) (fun l => l) (can_srcs size_text) = [].
Proof. vm_compute. auto. Qed.

Lemma can_compiled size p gp : In (p, gp) (can_srcs size) -> compiled gp.
Proof.
  intros [[= <- <-]|[]]. split.
  - constructor; [|constructor]. split; [reflexivity|]. apply CollectFile.well_formedb_sound. vm_compute. reflexivity.
  - unfold distinct_nodes. vm_compute. repeat constructor; cbn; intuition discriminate.
  - repeat constructor; cbn; tauto.
  - intros d [<-|[]]. exists (can_file size). eexists _, _, can_type, _. split; [now left|]. split; [|auto].
    change (events (can_file size)) with (events (can_file "")). instantiate (1 := skipn 7 (events (can_file ""))). instantiate (1 := false). instantiate (1 := firstn 6 (events (can_file ""))). vm_compute. reflexivity.
  - intros d fd [<-|[]] [<-|[<-|[<-|[]]]]; exists (can_file size), false;
      [exists (mkHeader 20 CollectModel.KField 116 120 None None)|exists (mkHeader 22 CollectModel.KField 122 126 None None)|exists can_size];
      (split; [now left|]); (split; [vm_compute; repeat (first [left; reflexivity|right])|auto]).
Qed.
(** What the comments say *)
Definition can_texts : list (string * (kind * string * tvalue)) :=
  [ ("groupName=`g`", (TText, "groupName", TvText "g")); ("kubebuilder:storageversion", (TStorageVersion, "kubebuilder:storageversion", TvCrd CStorage));
    (size_text, (TMaxLength, "kubebuilder:validation:MaxLength", TvSchema (MMaxLength 3))) ].
Lemma can_says text k n v : In (text, (k, n, v)) can_texts -> says ng nj k n text v.
Proof.
  assert (B : forall s, ParseSpec.before "" s) by (intros s; split; [apply ParseProofs.spaces_nil|reflexivity]).
  intros [H|[H|[H|[]]]]; injection H as <- <- <- <-.
  - apply (says_one ng nj TText "groupName" ParseModel.AStr "" "`g`" (ParseModel.VStr "g") false); [reflexivity| |apply B|constructor].
    apply ParseSpec.denotes_str. apply (ParseSpec.text_raw "g"). intros x a y E. destruct x as [|c x]; [|destruct x; discriminate E]. injection E as <- _. split; [discriminate|vm_compute; discriminate].
  - apply (says_flag ng nj TStorageVersion "kubebuilder:storageversion"). constructor.
  - apply (says_one ng nj TMaxLength "kubebuilder:validation:MaxLength" (ParseModel.AInt false) "" "3" (ParseModel.VInt 3) false); [reflexivity| |apply B|constructor].
    apply (ParseSpec.denotes_int _ false "3" 3); [|unfold ParseSpec.in_int64; lia|reflexivity]. left. split.
    + apply (ParseSpec.digits_more "" 0 "3"%char); [constructor|]. unfold ParseSpec.digit_char. cbn. lia.
    + right. exists "3"%char, "". split; [reflexivity|]. split; [unfold ParseSpec.digit_char; cbn; lia|discriminate].
Qed.
Lemma named_prefix n text : has_name n text -> has_prefix n text = true.
Proof. intros [->|[(r & ->)|(a & r & -> & _)]]; apply has_prefix_spec; [exists ""; symmetry; apply str_app_nil_r|eexists; reflexivity|eexists; reflexivity]. Qed.
(** No other markers have these names. *)
Lemma can_names text k t n : In text (map fst can_texts) -> known [GenCrd] k t n -> has_name n text -> exists v, In (text, (k, n, v)) can_texts.
Proof.
  intros It K H. apply named_prefix in H. apply known_definition in K as (d & Id & <- & <- & <-).
  assert (C : forallb (fun d => forallb (fun e => if has_prefix (d_name d) (fst e) then
      match snd e with (k, n, _) => String.eqb n (d_name d) && match p_kind (d_payload d), k with TText, TText | TStorageVersion, TStorageVersion | TMaxLength, TMaxLength => true | _, _ => false end end else true) can_texts) (definitions [GenCrd]) = true) by (vm_compute; reflexivity).
  rewrite forallb_forall in C. specialize (C d Id). rewrite forallb_forall in C. apply in_map_iff in It as ([text' [[k n] v]] & <- & It). specialize (C _ It). cbn [fst snd] in C, H. rewrite H in C.
  apply andb_true_iff in C as (C1 & C3). apply String.eqb_eq in C1. subst n. exists v.
  assert (E3 : p_kind (d_payload d) = k) by (destruct (p_kind (d_payload d)), k; try discriminate C3; reflexivity). rewrite E3. exact It.
Qed.
Lemma group_text c text : (exists g, In g (f_groups (can_file size_text)) /\ In c (g_list g)) -> SourceSpec.comment_is c text -> In text (map fst can_texts).
Proof.
  intros (g & Ig & Ic) C. apply SourceProofs2.comment_is_iff in C as (_ & C). cbn in Ig.
  destruct Ig as [<-|[<-|[<-|[]]]]; destruct Ic as [<-|[]]; vm_compute in C; injection C as <-; vm_compute; auto.
Qed.
Lemma last_in l g : In g (CollectSpec.last_of l) -> In g l.
Proof. induction l as [|a [|b l] IH]; [auto|auto|]. intros H. right. apply IH, H. Qed.
Lemma closest_in all es h g : In g (closest all es h) -> In g all.
Proof. intros H. apply last_in in H. apply filter_In in H as (H & _). apply filter_In in H as (H & _). exact H. Qed.
Lemma docs_in all es h g : In g (docs all es h) -> In g all.
Proof. intros H. apply filter_In in H as (H & _). apply filter_In in H as (H & _). exact H. Qed.
Lemma can_node h c : node_comment (can_file size_text) h c -> exists g, In g (f_groups (can_file size_text)) /\ In c (g_list g).
Proof. intros (g & Ic & [H|H]); exists g; (split; [|exact Ic]); [apply closest_in in H|apply docs_in in H]; exact H. Qed.
Lemma can_well p gp : In (p, gp) (can_srcs size_text) -> well_said ng nj [GenCrd] gp.
Proof.
  intros [[= <- <-]|[]]. assert (A : forall (comments : CollectModel.comment -> Prop) t, (forall c, comments c -> exists g, In g (f_groups (can_file size_text)) /\ In c (g_list g)) -> all_said ng nj [GenCrd] comments t).
  { intros comments t H c text k n Cc Ct K Hn. destruct (can_names text k t n (group_text c text (H c Cc) Ct) K Hn) as (v & I). exists v. exact (can_says text k n v I). }
  split; [|split].
  - apply A. intros c (f & g & [<-|[]] & Ig & Ic & _). exists g. auto.
  - intros d _. apply A. intros c (f & bef & top & h & aft & [<-|[]] & _ & _ & _ & [N|(d' & _ & N)]); exact (can_node _ c N).
  - intros d fd _ _. apply A. intros c (f & top & h & [<-|[]] & _ & _ & _ & N). exact (can_node _ c N).
Qed.
Lemma size_said : said ng nj [GenCrd] (field_comment (can_package size_text) 15) DescribesField "kubebuilder:validation:MaxLength" (TvSchema (MMaxLength 3)).
Proof.
  exists TMaxLength, (mkComment 5 ("// +" ++ size_text)), size_text. split; [|split; [|split]].
  - exists (can_file size_text), false, can_size. split; [now left|]. split; [vm_compute; repeat (first [left; reflexivity|right])|]. split; [reflexivity|]. split; [reflexivity|].
    exists (mkGroup 130 [mkComment 5 ("// +" ++ size_text)]). split; [now left|]. right. vm_compute. now left.
  - apply SourceProofs2.comment_is_iff. split; vm_compute; reflexivity.
  - exists GenCrd. split; [now left|]. apply spelled_schema; [auto|]. apply (spelled_validation TMaxLength "MaxLength"); [cbn; tauto|auto].
  - apply (can_says size_text TMaxLength "kubebuilder:validation:MaxLength"). cbn. tauto.
Qed.
Notation can_types := (source_types ng nj [GenCrd] (fun _ l => l) (fun l => l) (can_srcs size_text)).
Notation can_pkg := (source_pkg_markers ng nj [GenCrd] (fun _ l => l) (fun l => l) (can_srcs size_text)).
Definition can_info : tinfo := Eval vm_compute in match can_types ("p", "Can") with Some ti => ti | None => mkTInfo "" "" [] [] EStruct false false end.
Lemma can_types_eq id : can_types id = if ident_eqb id ("p", "Can") then Some can_info else None.
Proof.
  destruct id as [p n]. unfold ident_eqb. cbn [fst snd]. destruct (String.eqb_spec p "p") as [->|Np].
  - destruct (String.eqb_spec n "Can") as [->|Nn]; [vm_compute; reflexivity|]. unfold source_types, find_type. cbn [fst snd can_srcs mget]. rewrite String.eqb_refl. cbn [andb].
    replace (OriginModel.indexed ng nj [GenCrd] (fun _ l => l) (fun l => l) (can_package size_text)) with true by (vm_compute; reflexivity). cbn [can_package gp_decls rev app find td_name can_decl].
    destruct (String.eqb_spec "Can" n) as [E|]; [congruence|reflexivity].
  - unfold source_types. cbn [fst snd can_srcs mget]. apply String.eqb_neq in Np. rewrite Np. reflexivity.
Qed.
Lemma can_pkg_eq p : marked (can_pkg p) "kubebuilder:validation:Optional" -> False.
Proof. unfold source_pkg_markers. cbn [can_srcs mget]. destruct (String.eqb p "p"); [|intros (v & vs & H); discriminate H]. intros (v & vs & H). vm_compute in H. discriminate H. Qed.
Definition can_rank (id : ident) : nat := if String.eqb (snd id) "Can" then 1 else 0.
Notation can_tame_at := (tame (fun l => l) MarkProps.stable false true box_imports can_pkg can_types can_presets).
Lemma can_requests id ti s reqs errs : can_types id = Some ti -> generated (fun l => l) MarkProps.stable false true box_imports can_pkg id ti = Done s reqs errs ->
  id = ("p", "Can") /\ reqs = [("meta", "TypeMeta"); ("meta", "ObjectMeta")] /\ k_ref (s_kw s) = None.
Proof.
  assert (A : match generated (fun l => l) MarkProps.stable false true box_imports can_pkg ("p", "Can") can_info with Done s r _ => r = [("meta", "TypeMeta"); ("meta", "ObjectMeta")] /\ k_ref (s_kw s) = None | Panic => False end) by (vm_compute; auto).
  rewrite can_types_eq. destruct (ident_eqb id ("p", "Can")) eqn:E; [|clear; intros H; discriminate H]. apply FlattenProofs6.ident_eqb_eq in E. subst id. intros [= <-] G. rewrite G in A. split; [reflexivity|exact A].
Qed.
Lemma can_tame : can_tame_at ("p", "Can") can_rank.
Proof.
  assert (Nd : forall id, needed (fun l => l) MarkProps.stable false true box_imports can_pkg can_types can_presets [("p", "Can")] id -> In id [("p", "Can"); ("meta", "TypeMeta"); ("meta", "ObjectMeta")]).
  { induction 1 as [id [<-|[]]|id ti s reqs errs r N IH P E G I]; [left; reflexivity|].
    destruct (can_requests _ _ _ _ _ E G) as (_ & -> & _); cbn in I; repeat (destruct I as [<-|I]); try destruct I; clear; cbn; auto. }
  assert (Rn : forall id id', ~ renames (fun l => l) MarkProps.stable false true box_imports can_pkg can_types id id').
  { intros id id' (ti & s & reqs & errs & q & n & E & G & I & K & ->). destruct (can_requests _ _ _ _ _ E G) as (_ & _ & K'). congruence. }
  constructor.
  - intros id id' N P (ti & s & reqs & errs & r & E & G & I & ->). destruct (can_requests _ _ _ _ _ E G) as (-> & -> & _).
    destruct I as [<-|[<-|[]]]; clear; cbn; lia.
  - intros id N. apply Nd in N. destruct N as [<-|[<-|[<-|[]]]]; split; reflexivity.
  - intros id id' _ C. exfalso. induction C as [id id' C|]; [exact (Rn _ _ C)|assumption].
  - intros id ti _ _. rewrite can_types_eq. destruct (ident_eqb id ("p", "Can")); [intros [= <-]|discriminate].
    (split; [apply tame_few; intros []; vm_compute; auto; split; discriminate|split; [|split; [intros e; discriminate|apply distinct_roles; vm_compute; repeat constructor; cbn; intuition discriminate]]]).
    repeat (constructor; [apply tame_few; intros []; vm_compute; auto; split; discriminate|]); constructor.
  - intros q n s. unfold can_presets. destruct (String.eqb q "meta"); [|discriminate]. cbn [mget]. destruct (String.eqb n "TypeMeta"); [intros [= <-]|destruct (String.eqb n "ObjectMeta"); [|discriminate]; intros [= <-]].
    all: intros x [<-|[]]; repeat split; cbn; try constructor; discriminate.
Qed.
Notation can_emitted := (schema_of_type (fun l => l) MarkProps.stable false true box_imports can_pkg can_types can_presets (fun l => l) (fun c => N.eqb c 46) (fun c => N.eqb c 32) 100 None).
Lemma can_unmixed : unmixed (can_emitted ("p", "Can")).
Proof. apply unmixed_decided. vm_compute. reflexivity. Qed.
Lemma can_groups_are p gv : In (p, gv) (source_groups ng nj [GenCrd] (fun _ l => l) (fun l => l) (can_srcs size_text)) -> (p, gv) = ("p", ("g", "v1")).
Proof. intros H. vm_compute in H. destruct H as [H|[]]. symmetry. exact H. Qed.
Notation can_obeys := (obeys true can_presets (can_srcs size_text) ng nj [GenCrd] O_real ("p", "Can")).
Lemma can_presets_maps p : NoDup (map fst (can_presets p)).
Proof. unfold can_presets. destruct (String.eqb p "meta"); repeat constructor; cbn; intuition discriminate. Qed.
Lemma can_nodup : NoDup (map fst (can_srcs size_text)).
Proof. repeat constructor. intros []. Qed.
Lemma can_files : exists f x y, In (f, x) can_written /\ In y (c_versions x) /\ v_schema y = can_schema /\ c_group x = "g" /\ v_name y = "v1" /\ n_kind (c_names x) = "Can".
Proof. eexists _, _, _. split; [left; reflexivity|]. split; [left; reflexivity|]. repeat split. Qed.
(** The CRD accepts only what obeys the comments. *)
Example can_enforced v : null_free v = true -> metadata v = None -> valid O_real can_schema v = true -> can_obeys v.
Proof.
  intros N M V. destruct can_files as (f & x & y & If & Iy & Es & Eg & Ev & Ek). rewrite <- Es in V. destruct can_runs as (R & _).
  destruct (origin_enforced ng nj [GenCrd] (fun _ l => l) (fun l => l) (can_srcs size_text) box_imports "meta" (fun l => l) MarkProps.stable false true can_presets (fun l => l) (fun c => N.eqb c 46) (fun c => N.eqb c 32) 100 None
    (fun s => s) (fun s => s) (fun l => l) (fun l => l) by_name "v0" (fun l => l) (fun l => l) by_kind O_real
    (fun _ l => Permutation_refl l) (fun l => Permutation_refl l) MarkProps.id_order MarkProps.stable_sorts MarkProps.id_order can_presets_maps case_id case_id by_name_sorts case_id case_id by_kind_sorts
    can_nodup (can_compiled size_text) ltac:(intros p q gv I J; apply can_groups_are in I; apply can_groups_are in J; congruence) [] can_written [] f x y R If Iy) as (p & Ip & A).
  apply can_groups_are in Ip. injection Ip as -> _ _. rewrite Ek in A. apply (A can_rank can_tame can_unmixed v N V). intros m E. rewrite M in E. discriminate E.
Qed.
(** In particular the comment at Size. *)
Example can_size_enforced x : null_free x = true -> valid O_real can_schema (JObj [("size", x)]) = true -> admits O_real (MMaxLength 3) kw0 x.
Proof.
  intros N V. assert (B : can_obeys (JObj [("size", x)])) by (apply can_enforced; [cbn; rewrite N; reflexivity|reflexivity|exact V]).
  apply (ob_field _ _ _ _ _ _ _ _ _ B ("p", "Can") [("size", x)] (can_package size_text) can_decl can_field "size" x "kubebuilder:validation:MaxLength" (MMaxLength 3)); try reflexivity.
  - apply in_itself.
  - repeat split; now left.
  - repeat split.
  - cbn. tauto.
  - split; [discriminate|]. exists []. split; [|intros []]. split; [intros (_ & _ & E); discriminate E|]. exists "size". split; [reflexivity|]. split; [discriminate|].
    split; [reflexivity|repeat constructor].
  - exact size_said.
Qed.
Example can_valid : valid O_real can_schema (JObj [("size", JStr "abc")]) = true /\ valid O_real can_schema (JObj [("size", JStr "abcd")]) = false /\ valid O_real can_schema (JObj []) = false.
Proof. vm_compute. auto. Qed.
(** It accepts exactly the values of the type, by any reading of the comments; and there is one. *)
Example can_values types' pkg' v : reads ng nj [GenCrd] (can_srcs size_text) types' pkg' -> null_free v = true -> metadata v = None ->
  (valid O_real can_schema v = true <-> conforms O_real true pkg' types' can_presets ("p", "Can") v).
Proof.
  intros Rd N M. destruct can_files as (f & x & y & If & Iy & Es & Eg & Ev & Ek). rewrite <- Es. destruct can_runs as (R & _ & _ & Ne).
  destruct (origin_values ng nj [GenCrd] (fun _ l => l) (fun l => l) (can_srcs size_text) box_imports "meta" (fun l => l) MarkProps.stable false true can_presets (fun l => l) (fun c => N.eqb c 46) (fun c => N.eqb c 32) 100 None
    (fun s => s) (fun s => s) (fun l => l) (fun l => l) by_name "v0" (fun l => l) (fun l => l) by_kind O_real
    (fun _ l => Permutation_refl l) (fun l => Permutation_refl l) MarkProps.id_order MarkProps.stable_sorts MarkProps.id_order can_presets_maps case_id case_id by_name_sorts case_id case_id by_kind_sorts
    can_nodup (can_compiled size_text) ltac:(intros p q gv I J; apply can_groups_are in I; apply can_groups_are in J; congruence) Ne can_well [] can_written [] f x y types' pkg' Rd R If Iy) as (p & gp & d & Ip & _ & _ & _ & A).
  destruct Ip as [[= <- <-]|[]]. rewrite Ek in A. destruct (A can_rank can_tame can_unmixed v N) as (A1 & A2).
  split; [intros V; apply A2; [exact V|]|intros C; apply A1; [exact C|]]; intros m E; rewrite M in E; discriminate E.
Qed.
Example can_reading : reads ng nj [GenCrd] (can_srcs size_text) can_types can_pkg.
Proof. destruct can_runs as (_ & _ & _ & Ne). exact (tables_read ng nj [GenCrd] (fun _ l => l) (fun l => l) (fun _ l => Permutation_refl l) (fun l => Permutation_refl l) (can_srcs size_text) can_nodup (can_compiled size_text) Ne can_well). Qed.
Example can_embeds n : In n ["TypeMeta"; "ObjectMeta"] -> embeds box_imports "meta" "p" can_decl n.
Proof.
  intros [<-|[<-|[]]].
  - eexists _, "meta", TOther. split; [left; reflexivity|]. repeat split.
  - eexists _, "meta", TOther. split; [right; left; reflexivity|]. repeat split.
Qed.

(** One wrong comment at a field, here MaxLength=three, and no CRD of the package is written; the comment is reported, but there is no error from Generate. *)
Definition bad_text : string := "kubebuilder:validation:MaxLength=three".
Theorem origin_error_refuted : can_run bad_text = WDone [] false [] [] /\ comment_errors ng nj [GenCrd] (fun _ l => l) (fun l => l) (can_srcs bad_text) = [mkComment 5 ("// +" ++ bad_text)] /\
  (forall n, In n ["TypeMeta"; "ObjectMeta"] -> embeds box_imports "meta" "p" can_decl n).
Proof. split; [vm_compute; reflexivity|]. split; [vm_compute; reflexivity|exact can_embeds]. Qed.
Print Assumptions origin_error_refuted.
