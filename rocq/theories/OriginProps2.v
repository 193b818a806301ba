(** * C65: versions, names and metadata of the CRDs written are those that the comments say *)
From Coq Require Import List String Ascii Bool Arith ZArith NArith QArith Permutation Relations Lia.
From Verif Require Import GoLib GoLibFacts MapFacts DocModel SchemaModel SchemaFacts RefModel ErrorsModel ValidSpec MarkModel MarkSpec StructModel FlattenModel NeedModel FlattenSpec StructSpec StructProofs DescModel
  CrdModel CrdSpec CrdProofs4 CrdProps EmitModel EmitSpec EmitProps WholeModel WholeSpec WholeProofs WholeProps RegistryModel CollectModel CollectSpec
  TablesModel TablesSpec TablesProofs SourceModel SourceSpec OriginModel OriginSpec OriginSpec2 OriginProofs OriginProofs2 OriginProps.
Import ListNotations.
Open Scope string_scope.
Open Scope list_scope.
Open Scope nat_scope.

Lemma last_given {A} (f : cval -> option A) l x : CrdSpec.last_of f l = Some x -> exists m, In m l /\ f m = Some x.
Proof.
  induction l as [|m l IH]; [discriminate|]. cbn. destruct (CrdSpec.last_of f l) as [y|]; [intros [= ->]; destruct (IH eq_refl) as (m' & I & E); exists m'; auto|]. intros E. exists m. auto.
Qed.
Lemma last_there {A} (f : cval -> option A) l m x : In m l -> f m = Some x -> exists y, CrdSpec.last_of f l = Some y.
Proof. induction l as [|a l IH]; [intros []|]. cbn. intros [<-|I] E; [destruct (CrdSpec.last_of f l); eauto|]. destruct (IH I E) as (y & ->). eauto. Qed.

Section Origin.
  Variable fval : string -> option Q.
  Variable json_read : string -> option json.
  Variable gs : list generator.
  Variable forder : file -> list (nat * list marker) -> list (nat * list marker).
  Variable vorder : list (string * list tvalue) -> list (string * list tvalue).
  Variable srcs : list (string * gpackage).
  Variable imports : string -> string -> bool.
  Variable metav1 : string.
  Variable order : marker_values -> marker_values.
  Variable sorted : list (string * smarker) -> list (string * smarker).
  Variable allow_dangerous ignore_unexported : bool.
  Variable presets : string -> list (string * schema).
  Variable ord : list string -> list string.
  Variable is_sterm is_space : N -> bool.
  Variable fuel : nat.
  Variable max_desc : option Z.
  Variable pluralize lower : string -> string.
  Variable gv_order : list (string * (string * string)) -> list (string * (string * string)).
  Variable m_order : cmarkers -> cmarkers.
  Variable v_sort : list version -> list version.
  Variable tool_version : string.
  Variable t_order : list ((string * string) * list string) -> list ((string * string) * list string).
  Variable k_order k_sort : list (string * string) -> list (string * string).
  Variable O : oracles.
  Hypothesis forder_perm : forall f l, Permutation (forder f l) l.
  Hypothesis vorder_perm : forall l, Permutation (vorder l) l.
  Hypothesis order_ok : is_order order.
  Hypothesis sorted_ok : sorts sorted.
  Hypothesis ord_ok : is_order ord.
  Hypothesis presets_are_maps : forall p, NoDup (map fst (presets p)).
  Hypothesis Hg : is_order gv_order.
  Hypothesis Hm : is_order m_order.
  Hypothesis Hv : sorts_by (fun a b => str_ltb (v_name a) (v_name b)) v_sort.
  Hypothesis Ht : is_order t_order.
  Hypothesis Hk : is_order k_order.
  Hypothesis Hs : sorts_by (fun a b => str_ltb (gk_string a) (gk_string b)) k_sort.
  Hypothesis srcs_nodup : NoDup (map fst srcs).
  Hypothesis srcs_compiled : forall p gp, In (p, gp) srcs -> compiled gp.
  Notation indexed := (indexed fval json_read gs forder vorder).
  Notation package_marks := (package_marks fval json_read gs forder vorder).
  Notation marks := (marks fval json_read gs forder).
  Notation types := (source_types fval json_read gs forder vorder srcs).
  Notation pkg_markers := (source_pkg_markers fval json_read gs forder vorder srcs).
  Notation crd_markers := (source_crd_markers fval json_read gs forder vorder srcs).
  Notation groups := (source_groups fval json_read gs forder vorder srcs).
  Notation embedded := (source_embedded fval json_read gs forder vorder srcs imports metav1).
  Notation run := (run_sources fval json_read gs forder vorder srcs imports metav1 order sorted allow_dangerous ignore_unexported presets ord is_sterm is_space fuel max_desc pluralize lower gv_order m_order v_sort
    tool_version t_order k_order k_sort).
  Notation tame := (tame order sorted allow_dangerous ignore_unexported imports pkg_markers types presets).
  Notation schema_of_type := (schema_of_type order sorted allow_dangerous ignore_unexported imports pkg_markers types presets ord is_sterm is_space fuel max_desc).
  Notation conforms := (conforms O ignore_unexported).
  Notation said := (said fval json_read gs).
  Notation type_said := (type_said fval json_read gs).
  Notation marked := (marked_types types crd_markers).


  Hypothesis no_errors : comment_errors fval json_read gs forder vorder srcs = [].
  Hypothesis all_well : forall p gp, In (p, gp) srcs -> well_said fval json_read gs gp.
  Hypothesis one_package : forall p q gv, In (p, gv) groups -> In (q, gv) groups -> p = q.

  Lemma in_groups p g v : In (p, (g, v)) groups <-> exists gp, In (p, gp) srcs /\ group_version fval json_read gs forder vorder gp = Some (g, v).
  Proof. apply groups_in. Qed.
  Lemma in_flat (m : mvals) c : NoDup (map fst m) -> (In c (flat_map snd (crd_set m)) <-> exists n v, In v (of_name m n) /\ crd_value v = c).
  Proof.
    intros N. rewrite in_flat_map. split.
    - intros ([n vs] & I & Ic). apply of_crd_set in I as (l & I & ->). cbn in Ic. apply in_map_iff in Ic as (v & E & Iv). exists n, v. split; [|exact E]. apply name_in. exists l. split; [apply (MapFacts.in_mget _ _ String.eqb String.eqb_eq _ _ _ N I)|exact Iv].
    - intros (n & v & Iv & E). apply name_in in Iv as (l & G & Iv). apply (MapFacts.mget_in _ _ String.eqb String.eqb_eq) in G. exists (n, map crd_value l). split; [unfold crd_set; apply in_map_iff; exists (n, l); auto|]. cbn. apply in_map_iff. eauto.
  Qed.
  (** The markers that a type is given are those that its comments say. *)
  Lemma type_marks p gp d c : In (p, gp) srcs -> indexed gp = true -> In d (gp_decls gp) -> ckind_of c <> CrdSpec.KOther ->
    (In c (flat_map snd (crd_set (marks gp (td_node d)))) <-> type_said gp d (name_of_ckind (ckind_of c)) c).
  Proof.
    intros Ip X Id Ne. pose proof (srcs_compiled p gp Ip) as C. pose proof (proj1 (proj2 (all_well p gp Ip)) d Id) as A.
    rewrite (in_flat _ c (spec_nodup fval json_read gs forder vorder forder_perm gp d C X Id)). split.
    - intros (n & v & Iv & E). destruct (spec_found fval json_read gs forder vorder forder_perm gp d n v C X Id Iv) as (cm & text & k & _ & _ & _ & Vk & Kn).
      apply (spec_exact fval json_read gs forder vorder forder_perm gp d n v C X Id A) in Iv. rewrite <- E in Ne. pose proof (crd_value_named gs v k n Vk Kn Ne) as En. rewrite E in En. subst n.
      destruct v as [m|c'|r|h|w|s|b|s| |]; try (exfalso; apply Ne; reflexivity). cbn in E. subst c'. exact Iv.
    - intros S. exists (name_of_ckind (ckind_of c)), (TvCrd c). split; [|reflexivity]. apply (spec_exact fval json_read gs forder vorder forder_perm gp d _ _ C X Id A). exact S.
  Qed.
  Lemma marked_is p k ms : marked (p, k) = Some ms <-> exists gp d, In (p, gp) srcs /\ indexed gp = true /\ In d (gp_decls gp) /\ td_name d = k /\ ms = crd_set (marks gp (td_node d)).
  Proof.
    unfold marked_types. pose proof (types_iff fval json_read gs forder vorder srcs srcs_nodup srcs_compiled (p, k)) as T. cbn [fst snd] in T.
    assert (Cm : forall gp d, In (p, gp) srcs -> indexed gp = true -> In d (gp_decls gp) -> td_name d = k -> crd_markers (p, k) = crd_set (marks gp (td_node d))).
    { intros gp d Ip X Id <-. unfold source_crd_markers. cbn [fst snd]. rewrite (MapFacts.in_mget _ _ String.eqb String.eqb_eq _ _ _ srcs_nodup Ip). unfold find_type. rewrite X, (find_last gp d (srcs_compiled p gp Ip) Id). reflexivity. }
    split.
    - destruct (types (p, k)) as [ti|]; [|discriminate]. intros [= <-]. destruct (proj1 (T ti) eq_refl) as (gp & d & Ip & X & Id & En & _). exists gp, d. repeat (split; [assumption|]). apply Cm; assumption.
    - intros (gp & d & Ip & X & Id & En & ->). rewrite (proj2 (T (type_info fval json_read gs forder gp d))); [|exists gp, d; auto]. f_equal. apply Cm; assumption.
  Qed.
  Definition of_kind (g k p n : string) (gp : gpackage) (d : tdecl) : Prop := In (p, (g, n)) groups /\ In (p, gp) srcs /\ In d (gp_decls gp) /\ td_name d = k.
  Lemma group_shown p g n gp : In (p, (g, n)) groups -> In (p, gp) srcs -> indexed gp = true.
  Proof. intros G Ip. apply in_groups in G as (gp' & Ip' & E). pose proof (one_source srcs srcs_nodup p gp gp' Ip Ip') as <-. exact (group_indexed fval json_read gs forder vorder gp _ E). Qed.
  Lemma carried g k p n m : ckind_of m <> CrdSpec.KOther -> (carries groups marked g k p n m <-> exists gp d, of_kind g k p n gp d /\ type_said gp d (name_of_ckind (ckind_of m)) m).
  Proof.
    intros Ne. split.
    - intros (ms & name & vs & (G & M) & I & Im). apply marked_is in M as (gp & d & Ip & X & Id & En & ->). exists gp, d. split; [repeat (split; [assumption|]); assumption|].
      apply (type_marks p gp d m Ip X Id Ne). apply in_flat_map. exists (name, vs). auto.
    - intros (gp & d & (G & Ip & Id & En) & S). pose proof (group_shown p g n gp G Ip) as X. apply (type_marks p gp d m Ip X Id Ne) in S. apply in_flat_map in S as ([name vs] & I & Im).
      exists (crd_set (marks gp (td_node d))), name, vs. split; [|auto]. split; [exact G|]. apply marked_is. exists gp, d. auto.
  Qed.
  Lemma regular g k : distinct_versions groups marked g k /\ all_registered groups marked g k.
  Proof.
    split; [intros p ms p' ms' n (I & _) (I' & _); exact (one_package p p' _ I I')|].
    apply (sources_registered fval json_read gs forder vorder srcs forder_perm srcs_nodup srcs_compiled).
  Qed.
  Notation need := (need_crd pluralize lower gv_order m_order v_sort groups marked schema_of_type).
  (** The CRD of which a file is *)
  Lemma written vers w es rep f x : run vers = WDone w false es rep -> In (f, x) w -> c_versions x <> [] ->
    exists c errs, need (c_group x) (n_kind (c_names x)) = CDone (Some c) errs /\ published tool_version c x /\ kube_kind groups embedded (c_group x) (n_kind (c_names x)).
  Proof.
    intros R If Ne. pose proof (run_generate _ _ _ _ _ _ _ _ _ _ _ _ _ _ _ _ _ _ _ _ _ _ _ _ _ _ _ _ _ _ R) as G.
    destruct (files_written _ _ _ _ _ _ _ _ _ _ _ _ _ Hg Hm Ht Hk Hs _ _ _ G) as (_ & W & _). destruct (W f x If) as (g & k & o & errs & i & v & K & N & _ & Pu).
    destruct o as [c|]; [|destruct Pu as [_ E]; contradiction]. destruct Pu as (_ & Pu).
    destruct (crd_name _ _ _ _ _ _ _ _ Hg Hm _ _ _ _ N) as (_ & Eg & Ek & _). pose proof (pu_group _ _ _ Pu) as Pg. pose proof (pu_names _ _ _ Pu) as Pn. rewrite Pg, Pn, Eg, Ek. exists c, errs. auto.
  Qed.
  Lemma names_kept c errs x g k n : need g k = CDone (Some c) errs -> published tool_version c x -> (In n (map v_name (c_versions x)) <-> kept groups marked g k n).
  Proof.
    intros N Pu. destruct (crd_versions _ _ _ _ _ _ _ _ Hg Hm Hv _ _ _ _ N) as (_ & V & _). rewrite <- V. pose proof (pu_versions _ _ _ Pu) as Pv.
    assert (E : map v_name (c_versions x) = map v_name (c_versions c)).
    { clear -Pv. induction Pv as [|a b l l' (H & _) _ IH]; [reflexivity|]. cbn. rewrite IH, H. reflexivity. }
    rewrite E. reflexivity.
  Qed.

  (** ** Versions *)
  Theorem origin_versions vers w es rep f x y : run vers = WDone w false es rep -> In (f, x) w -> In y (c_versions x) ->
    exists p gp d, In (p, gp) srcs /\ ~ left_out fval json_read gs gp /\ In d (gp_decls gp) /\ td_name d = n_kind (c_names x) /\ placed fval json_read gs gp (c_group x) (v_name y) /\
      version_said fval json_read gs gp d (forall y', In y' (c_versions x) -> v_name y' = v_name y) y.
  Proof.
    intros R If Iy. destruct (written vers w es rep f x R If) as (c & errs & N & Pu & K); [intros E; rewrite E in Iy; destruct Iy|].
    set (g := c_group x) in *. set (k := n_kind (c_names x)) in *. destruct (regular g k) as (Dv & Ar).
    destruct (Forall2_in_right _ _ _ (pu_versions _ _ _ Pu) y Iy) as (z & Iz & Ez & _ & _ & _).
    destruct (crd_version_contents _ _ _ _ _ _ _ _ Hg Hm Hv _ _ _ _ (groups_nodup fval json_read gs forder vorder srcs srcs_nodup) Dv Ar N) as (_ & Cv). destruct (Cv z Iz) as (p & ms & D & Vs).
    assert (Ey : v_name y = v_name z) by (rewrite Ez; reflexivity). rewrite <- Ey in D, Vs. destruct D as (G & M). pose proof M as M'. apply marked_is in M as (gp & d & Ip & X & Id & En & ->).
    exists p, gp, d. split; [exact Ip|]. split; [apply (indexed_iff fval json_read gs forder vorder forder_perm vorder_perm srcs srcs_compiled no_errors all_well p gp Ip), X|]. split; [exact Id|]. split; [exact En|]. split.
    { destruct (proj1 (origin_groups fval json_read gs forder vorder srcs imports metav1 pluralize lower forder_perm vorder_perm srcs_compiled no_errors all_well p g (v_name y)) G) as (gp' & Ip' & _ & Pl). pose proof (one_source srcs srcs_nodup p gp gp' Ip Ip') as <-. exact Pl. }
    assert (T : forall c, ckind_of c <> CrdSpec.KOther -> (In c (flat_map snd (crd_set (marks gp (td_node d)))) <-> type_said gp d (name_of_ckind (ckind_of c)) c)) by (intros c' Ne; apply (type_marks p gp d c' Ip X Id Ne)).
    set (l := flat_map snd (crd_set (marks gp (td_node d)))) in *. destruct Vs as [_ _ Ser Sto Dep Wa Sub Sta Sca Col Fie].
    assert (F : v_served y = v_served z /\ v_storage y = v_storage z /\ v_deprecated y = v_deprecated z /\ v_warning y = v_warning z /\ v_sub y = v_sub z /\ v_columns y = v_columns z /\ v_fields y = v_fields z) by (rewrite Ez; repeat split).
    destruct F as (F1 & F2 & F3 & F4 & F5 & F6 & F7). constructor; rewrite ?F1, ?F2, ?F3, ?F4, ?F5, ?F6, ?F7.
    - intros Nv S. assert (Kn : kept groups marked g k (v_name y)) by (apply (names_kept c errs x g k _ N Pu), List.in_map, Iy). destruct Kn as (_ & Kn). apply Kn. split; [exact Nv|]. exists p. apply (carried g k p (v_name y) CSkip); [discriminate|]. exists gp, d. split; [repeat (split; [assumption|]); assumption|exact S].
    - rewrite Ser. rewrite (T CUnserved); [reflexivity|discriminate].
    - rewrite Sto. rewrite (T CStorage) by discriminate. split; (intros [O1|O2]; [left|right; exact O2]).
      + intros y' Iy'. apply O1, (names_kept c errs x g k _ N Pu), List.in_map, Iy'.
      + intros n Kn. apply (names_kept c errs x g k _ N Pu) in Kn. apply in_map_iff in Kn as (y' & <- & Iy'). apply O1, Iy'.
    - rewrite Dep. split; (intros (Nv & w' & H); split; [exact Nv|exists w']; apply (T (CDeprecated w') ltac:(discriminate)), H).
    - intros w' E. rewrite Wa in E. destruct (String.eqb (v_name y) ""); [discriminate|]. destruct (CrdSpec.last_of warning_in l) as [o|] eqn:L; [|discriminate]. rewrite E in L. apply last_given in L as (m & Im & Em).
      destruct m; try discriminate Em. injection Em as ->. apply (T (CDeprecated (Some w')) ltac:(discriminate)), Im.
    - intros w' Nv S U. rewrite Wa. apply String.eqb_neq in Nv. rewrite Nv. apply (T (CDeprecated w') ltac:(discriminate)) in S. destruct (last_there warning_in l _ w' S eq_refl) as (o & L). rewrite L.
      apply last_given in L as (m & Im & Em). destruct m; try discriminate Em. injection Em as ->. apply U. apply (T (CDeprecated o) ltac:(discriminate)), Im.
    - rewrite <- (T CStatus ltac:(discriminate)). split; [intros (s & Es & Et); apply (Sta s Es), Et|]. intros I. destruct (v_sub z) as [s|] eqn:Es; [exists s; split; [reflexivity|apply (Sta s eq_refl), I]|]. exfalso. exact (proj1 Sub eq_refl CStatus I Logic.I).
    - intros s q Es Eq. rewrite (Sca s Es) in Eq. apply last_given in Eq as (m & Im & Em). destruct m; try discriminate Em. injection Em as ->. apply (T (CScale q) ltac:(discriminate)), Im.
    - intros q S U. apply (T (CScale q) ltac:(discriminate)) in S. destruct (v_sub z) as [s|] eqn:Es; [|exfalso; exact (proj1 Sub eq_refl _ S Logic.I)]. exists s. split; [reflexivity|]. rewrite (Sca s eq_refl).
      destruct (last_there scale_in l _ q S eq_refl) as (o & L). rewrite L. apply last_given in L as (m & Im & Em). destruct m; try discriminate Em. injection Em as ->. f_equal. apply U. apply (T (CScale o) ltac:(discriminate)), Im.
    - intros co. rewrite Col. rewrite <- (T (CColumn co) ltac:(discriminate)). unfold columns_in. rewrite in_flat_map. split; [intros (m & Im & H); destruct m; cbn in H; try contradiction; destruct H as [->|[]]; exact Im|]. intros I. exists (CColumn co). split; [exact I|now left].
    - intros q. rewrite Fie. rewrite <- (T (CSelectable q) ltac:(discriminate)). unfold fields_in. rewrite in_flat_map. split; [intros (m & Im & H); destruct m; cbn in H; try contradiction; destruct H as [->|[]]; exact Im|]. intros I. exists (CSelectable q). split; [exact I|now left].
  Qed.

  (** ** Kinds: a CRD is written only for types that embed TypeMeta and ObjectMeta. *)
  Theorem origin_kinds vers w es rep f x : run vers = WDone w false es rep -> In (f, x) w -> c_versions x <> [] ->
    exists p gp d, In (p, gp) srcs /\ ~ left_out fval json_read gs gp /\ In d (gp_decls gp) /\ td_name d = n_kind (c_names x) /\ embeds imports metav1 p d "TypeMeta" /\ embeds imports metav1 p d "ObjectMeta" /\
      ((exists v, placed fval json_read gs gp (c_group x) v) \/ (c_group x = "" /\ forall u, ~ said (package_comment (gp_files gp)) DescribesPackage "groupName" u)).
  Proof.
    intros R If Ne. destruct (written vers w es rep f x R If Ne) as (c & errs & _ & _ & (p & ns & Ie & Io & It & G)).
    unfold source_embedded in Ie. apply in_flat_map in Ie as ([p' gp] & Ip & H). cbn [fst snd] in H. destruct (indexed gp) eqn:X; [|destruct H]. apply in_map_iff in H as (d & E & Id). injection E as -> En <-.
    assert (Em : forall n, In n (metav1_names imports metav1 p d) -> embeds imports metav1 p d n).
    { intros n I. unfold metav1_names in I. apply in_flat_map in I as (fd & Ifd & I). destruct (String.eqb_spec (df_name fd) "") as [E1|]; [|destruct I].
      destruct (type_of (df_type fd)) eqn:E2; try contradiction I. match type of I with context [match ?o with _ => _ end] => destruct o as [| |q] eqn:? end; try contradiction I.
      destruct (String.eqb_spec (non_vendor_path q) metav1) as [E3|]; [|destruct I]. destruct (imports p metav1) eqn:E4; [|destruct I]. destruct I as [<-|[]]. eexists fd, q, _. split; [exact Ifd|]. split; [exact E1|]. subst. split; [exact E2|]. auto. }
    exists p, gp, d. split; [exact Ip|]. split; [apply (indexed_iff fval json_read gs forder vorder forder_perm vorder_perm srcs srcs_compiled no_errors all_well p gp Ip), X|]. split; [exact Id|]. split; [exact En|].
    split; [apply Em, It|]. split; [apply Em, Io|]. destruct G as [(n & G)|(G & Eg)].
    - left. exists n. apply (MapFacts.mget_in _ _ String.eqb String.eqb_eq) in G.
      destruct (proj1 (origin_groups fval json_read gs forder vorder srcs imports metav1 pluralize lower forder_perm vorder_perm srcs_compiled no_errors all_well p (c_group x) n) G) as (gp' & Ip' & _ & Pl). pose proof (one_source srcs srcs_nodup p gp gp' Ip Ip') as <-. exact Pl.
    - right. split; [exact Eg|]. intros u S. assert (Gn : group_version fval json_read gs forder vorder gp <> None).
      { unfold group_version. rewrite X.
        assert (Tv : forall n v, In n ["groupName"; "versionName"] -> In v (of_name (package_marks gp) n) -> exists s, v = TvText s) by (intros n v; apply (text_value fval json_read gs forder vorder srcs imports metav1 pluralize lower forder_perm vorder_perm srcs_compiled no_errors p gp n v Ip)).
        apply (package_exact' fval json_read gs forder vorder forder_perm vorder_perm srcs srcs_compiled no_errors all_well p gp _ _ Ip) in S; [|apply not_at_types; cbn; tauto].
        destruct (of_name (package_marks gp) "groupName") as [|v0 l0] eqn:E0; [destruct S|]. destruct (Tv "groupName" v0) as (s & ->); [now left|rewrite E0; now left|].
        destruct (of_name (package_marks gp) "versionName") as [|v1 l1] eqn:E1; [discriminate|]. destruct (Tv "versionName" v1) as (s1 & ->); [right; now left|rewrite E1; now left|]. discriminate. }
      destruct (group_version fval json_read gs forder vorder gp) as [[g v]|] eqn:E; [|contradiction]. assert (I : In (p, (g, v)) groups) by (apply in_groups; eauto).
      apply (MapFacts.in_mget _ _ String.eqb String.eqb_eq _ _ _ (groups_nodup fval json_read gs forder vorder srcs srcs_nodup)) in I. rewrite I in G. discriminate G.
  Qed.

  (** ** Names: the default ones, or those of the resource marker *)
  Theorem origin_names vers w es rep f x : run vers = WDone w false es rep -> In (f, x) w -> c_versions x <> [] ->
    c_name x = (n_plural (c_names x) ++ "." ++ c_group x)%string /\
    ((forall p n gp d r, of_kind (c_group x) (n_kind (c_names x)) p n gp d -> ~ type_said gp d "kubebuilder:resource" (CResource r)) -> c_names x = default_names pluralize lower (n_kind (c_names x))) /\
    (forall p n gp d r, of_kind (c_group x) (n_kind (c_names x)) p n gp d -> type_said gp d "kubebuilder:resource" (CResource r) ->
      (forall p' n' gp' d' r', of_kind (c_group x) (n_kind (c_names x)) p' n' gp' d' -> type_said gp' d' "kubebuilder:resource" (CResource r') -> r' = r) ->
      c_names x = resource_names pluralize lower (n_kind (c_names x)) r).
  Proof.
    intros R If Ne. destruct (written vers w es rep f x R If Ne) as (c & errs & N & Pu & _). set (g := c_group x) in *. set (k := n_kind (c_names x)) in *.
    destruct (crd_name _ _ _ _ _ _ _ _ Hg Hm _ _ _ _ N) as (Nm & Eg & Ek & El). destruct (crd_names _ _ _ _ _ _ _ _ Hg Hm _ _ _ _ N) as (A & B). pose proof (pu_names _ _ _ Pu) as Pn. pose proof (pu_name _ _ _ Pu) as Pm. rewrite Pm, Pn.
    split; [exact Nm|]. split.
    - intros H. rewrite A; [reflexivity|]. intros p n r Ca. apply (carried g k p n (CResource r)) in Ca as (gp & d & Ok & S); [|discriminate]. exact (H p n gp d r Ok S).
    - intros p n gp d r Ok S U. destruct (B p n r) as (B1 & B2 & B3 & B4 & B5).
      + apply (carried g k p n (CResource r)); [discriminate|]. eauto.
      + intros p1 n1 r1 p2 n2 r2 C1 C2. apply (carried g k p1 n1 (CResource r1)) in C1 as (gp1 & d1 & Ok1 & S1); [|discriminate]. apply (carried g k p2 n2 (CResource r2)) in C2 as (gp2 & d2 & Ok2 & S2); [|discriminate].
        rewrite (U _ _ _ _ _ Ok1 S1), (U _ _ _ _ _ Ok2 S2). reflexivity.
      + unfold resource_names. destruct (c_names c) as [n1 n2 n3 n4 n5 n6 n7]. cbn in *. subst. reflexivity.
  Qed.

  (** ** Annotations and labels *)
  Theorem origin_metadata vers w es rep f x : run vers = WDone w false es rep -> In (f, x) w -> c_versions x <> [] ->
    let said_of (what : cval -> string * string -> Prop) k v := exists p n gp d a l, of_kind (c_group x) (n_kind (c_names x)) p n gp d /\ type_said gp d "kubebuilder:metadata" (CMetadata a l) /\ what (CMetadata a l) (k, v) in
    mget String.eqb (c_annotations x) "controller-gen.kubebuilder.io/version" = Some tool_version /\
    (forall k v, mget String.eqb (c_annotations x) k = Some v -> k <> "controller-gen.kubebuilder.io/version" -> said_of annotates k v) /\
    (forall k v, mget String.eqb (c_labels x) k = Some v -> said_of labels k v) /\
    ((forall k v v', said_of annotates k v -> said_of annotates k v' -> v = v') -> forall k v, said_of annotates k v -> k <> "controller-gen.kubebuilder.io/version" -> mget String.eqb (c_annotations x) k = Some v) /\
    ((forall k v v', said_of labels k v -> said_of labels k v' -> v = v') -> forall k v, said_of labels k v -> mget String.eqb (c_labels x) k = Some v).
  Proof.
    intros R If Ne said_of. destruct (written vers w es rep f x R If Ne) as (c & errs & N & Pu & _). destruct (crd_metadata _ _ _ _ _ _ _ _ Hg Hm _ _ _ _ N) as (A & L & A' & L').
    pose proof (pu_annotations _ _ _ Pu) as Pa. pose proof (pu_labels _ _ _ Pu) as Pl.
    assert (Sa : forall what : cval -> string * string -> Prop, (forall m kv, what m kv -> exists a l, m = CMetadata a l) -> forall k v, said_of what k v <-> exists p n m, carries groups marked (c_group x) (n_kind (c_names x)) p n m /\ what m (k, v)).
    { intros what Wm k v. split.
      - intros (p & n & gp & d & a & l & Ok & S & Wh). exists p, n, (CMetadata a l). split; [|exact Wh]. apply carried; [discriminate|]. exists gp, d. auto.
      - intros (p & n & m & Ca & Wh). destruct (Wm _ _ Wh) as (a & l & ->). apply carried in Ca as (gp & d & Ok & S); [|discriminate]. exists p, n, gp, d, a, l. auto. }
    assert (Wa : forall m kv, annotates m kv -> exists a l, m = CMetadata a l) by (intros m kv (a & l & pre & s & post & -> & _); eauto). assert (Wl : forall m kv, labels m kv -> exists a l, m = CMetadata a l) by (intros m kv (a & l & s & -> & _); eauto).
    assert (Ag : forall what : cval -> string * string -> Prop, (forall m kv, what m kv -> exists a l, m = CMetadata a l) -> (forall k v v', said_of what k v -> said_of what k v' -> v = v') -> metadata_agree groups marked (c_group x) (n_kind (c_names x)) what).
    { intros what Wm U p n m p' n' m' k v v' C1 W1 C2 W2. apply (U k v v'); apply (Sa what Wm); eauto. }
    split; [rewrite Pa, String.eqb_refl; reflexivity|]. split; [|split; [|split]].
    - intros k v H Nk. rewrite Pa in H. apply String.eqb_neq in Nk. rewrite Nk in H. apply (Sa annotates Wa), A, H.
    - intros k v H. rewrite Pl in H. apply (Sa labels Wl), L, H.
    - intros U k v S Nk. rewrite Pa. apply String.eqb_neq in Nk. rewrite Nk. apply (Sa annotates Wa) in S as (p & n & m & Ca & Wh). exact (A' (Ag annotates Wa U) p n m k v Ca Wh).
    - intros U k v S. rewrite Pl. apply (Sa labels Wl) in S as (p & n & m & Ca & Wh). exact (L' (Ag labels Wl U) p n m k v Ca Wh).
  Qed.
End Origin.
Print Assumptions origin_versions.
Print Assumptions origin_kinds.
Print Assumptions origin_names.
Print Assumptions origin_metadata.

(** ** The package of OriginProps: its hypotheses hold there. *)
Notation can_args th := (th ng nj [GenCrd] (fun _ l => l) (fun l => l) (can_srcs size_text) box_imports "meta" (fun l => l) MarkProps.stable false true can_presets (fun l => l) (fun c => N.eqb c 46) (fun c => N.eqb c 32) 100 None
  (fun s => s) (fun s => s) (fun l => l) (fun l => l) by_name "v0" (fun l => l) (fun l => l) by_kind (fun _ l => Permutation_refl l)) (only parsing).
Example can_version f x y : In (f, x) can_written -> In y (c_versions x) ->
  exists d, d = can_decl /\ version_said ng nj [GenCrd] (can_package size_text) d (forall y', In y' (c_versions x) -> v_name y' = v_name y) y /\ v_storage y = true /\ v_served y = true /\ v_sub y = None.
Proof.
  intros If Iy. destruct can_runs as (R & _ & _ & Ne).
  destruct (can_args origin_versions (fun l => Permutation_refl l) case_id case_id by_name_sorts case_id case_id by_kind_sorts can_nodup (can_compiled size_text) Ne can_well
    ltac:(intros p q gv I J; apply can_groups_are in I; apply can_groups_are in J; congruence) [] can_written [] [] f x y R If Iy) as (p & gp & d & Ip & _ & Id & _ & _ & V).
  destruct Ip as [[= <- <-]|[]]. destruct Id as [<-|[]]. exists can_decl. split; [reflexivity|]. split; [exact V|]. clear V.
  destruct If as [E|[]]. injection E as <- <-. destruct Iy as [<-|[]]. repeat split.
Qed.
Lemma says_prefix k n text v : says ng nj k n text v -> has_prefix n text = true.
Proof. intros S. apply has_prefix_spec. destruct S; try (eexists; reflexivity); try (exists ""; symmetry; apply str_app_nil_r). destruct H as [E|E]; subst s; [exists ""|exists "="]; reflexivity. Qed.
Example can_named f x : In (f, x) can_written -> c_name x = "Can.g" /\ c_names x = default_names (fun s => s) (fun s => s) "Can" /\ embeds box_imports "meta" "p" can_decl "TypeMeta".
Proof.
  intros If. destruct can_runs as (R & _ & _ & Ne). assert (Nv : c_versions x <> []) by (destruct If as [E|[]]; injection E as <- <-; discriminate).
  destruct (can_args origin_names case_id case_id case_id case_id by_kind_sorts can_nodup (can_compiled size_text) can_well [] can_written [] [] f x R If Nv) as (A & B & _).
  destruct (can_args origin_kinds (fun l => Permutation_refl l) case_id case_id case_id case_id by_kind_sorts can_nodup (can_compiled size_text) Ne can_well [] can_written [] [] f x R If Nv) as (p & gp & d & Ip & _ & Id & _ & Et & _).
  destruct Ip as [[= <- <-]|[]]. destruct Id as [<-|[]]. assert (K : n_kind (c_names x) = "Can" /\ c_group x = "g" /\ n_plural (c_names x) = "Can") by (destruct If as [E|[]]; injection E as <- <-; repeat split). destruct K as (K & Kg & Kp).
  rewrite Kg, Kp in A. rewrite K in B. split; [exact A|]. split; [|exact Et]. apply B. intros q n gp d r (_ & Iq & Id & _) (k & c & text & (f0 & bef & top & h & aft & If0 & _ & _ & _ & Tc) & Ct & Kn & S).
  destruct Iq as [[= <- <-]|[]]. destruct Id as [<-|[]]. destruct If0 as [<-|[]].
  assert (G : In text (map fst can_texts)) by (apply (group_text c text); [destruct Tc as [N|(d' & _ & N)]; exact (can_node _ c N)|exact Ct]).
  assert (H : has_prefix "kubebuilder:resource" text = true) by (exact (says_prefix _ _ _ _ S)).
  cbn in G. destruct G as [<-|[<-|[<-|[]]]]; discriminate H.
Qed.
