(** * C66: what the generator takes from the markers is what the comments say *)
From Coq Require Import List String Ascii Bool Arith ZArith NArith QArith Permutation Lia.
From Verif Require Import GoLib GoLibFacts MapFacts DocModel SchemaModel ErrorsModel RegistryModel CollectModel CollectSpec CollectProps
  TablesModel TablesSpec TablesProofs TablesProofs2 TablesProofs3 TablesProofs4 TablesProps SourceModel SourceSpec SourceProofs SourceProofs2 SourceProofs3 SourceProofs4 SourceProps OriginModel OriginSpec OriginProofs OriginProofs2.
From Verif Require Import DeepModel DeepSpec ImportModel ManifestModel ObjectModel ObjectSpec CopiesModel CopiesSpec CopiesProofs.
Import ListNotations.
Open Scope string_scope.
Open Scope list_scope.

(** ** Values *)
Lemma value_bool v b : object_value v = VBool b -> v = TvBool b. Proof. destruct v; cbn; congruence. Qed.
Lemma value_raw v s : object_value v = VRaw s -> v = TvRaw s. Proof. destruct v; cbn; congruence. Qed.
Lemma value_text v s : object_value v = VText s -> v = TvText s. Proof. destruct v; cbn; congruence. Qed.

Section Set_.
  Variable m : SourceModel.mvals.
  Hypothesis N : NoDup (map fst m).
  Lemma set_in n l : In (n, l) (object_set m) <-> exists l', In (n, l') m /\ l = map object_value l'.
  Proof.
    unfold object_set. rewrite in_map_iff. split.
    - intros ([n' l'] & [= <- <-] & I). exists l'. auto.
    - intros (l' & I & ->). exists (n, l'). auto.
  Qed.
  Lemma set_named n l : In (n, l) m -> of_name m n = l.
  Proof. intros I. unfold of_name. rewrite (MapFacts.in_mget _ _ String.eqb String.eqb_eq _ _ _ N I). reflexivity. Qed.
  Lemma first_in n x : first (object_set m) n x -> exists v, In v (of_name m n) /\ x = object_value v.
  Proof.
    intros (l & I). apply set_in in I as (l' & I & E). destruct l' as [|v l']; [discriminate|]. injection E as -> ->. exists v. rewrite (set_named n _ I). split; [now left|reflexivity].
  Qed.
  Lemma in_first n v : (forall u, In u (of_name m n) -> u = v) -> In v (of_name m n) -> first (object_set m) n (object_value v).
  Proof.
    intros A I. apply name_in in I as (l & G & I). apply (MapFacts.mget_in _ _ String.eqb String.eqb_eq) in G. destruct l as [|u l]; [destruct I|].
    assert (u = v) as -> by (apply A; rewrite (set_named n _ G); now left). exists (map object_value l). apply set_in. exists (v :: l). auto.
  Qed.
  Lemma absent_in n : absent (object_set m) n <-> forall v, ~ In v (of_name m n).
  Proof.
    split.
    - intros A v I. apply name_in in I as (l & G & I). apply (MapFacts.mget_in _ _ String.eqb String.eqb_eq) in G. assert (E : map object_value l = []) by (apply A, set_in; exists l; auto). destruct l; [destruct I|discriminate].
    - intros A l I. apply set_in in I as (l' & I & ->). destruct l' as [|v l']; [reflexivity|]. elim (A v). rewrite (set_named n _ I). now left.
  Qed.
  Lemma text_in n s : (exists l, In (n, l) (object_set m) /\ In (VText s) l) <-> In (TvText s) (of_name m n).
  Proof.
    split.
    - intros (l & I & J). apply set_in in I as (l' & I & ->). apply in_map_iff in J as (v & E & J). apply value_text in E. subst v. rewrite (set_named n _ I). exact J.
    - intros I. apply name_in in I as (l & G & I). apply (MapFacts.mget_in _ _ String.eqb String.eqb_eq) in G. exists (map object_value l). split; [apply set_in; exists l; auto|]. apply in_map_iff. exists (TvText s). auto.
  Qed.

  (** With a reading of the comments *)
  Variable S : string -> tvalue -> Prop.
  Lemma first_said n x y : (forall v, In v (of_name m n) <-> S n v) -> (forall u v, S n u -> S n v -> u = v) -> object_value y = x -> (forall v, object_value v = x -> v = y) -> (first (object_set m) n x <-> S n y).
  Proof.
    intros H A Ey Inj. split.
    - intros F. apply first_in in F as (v & I & E). symmetry in E. apply Inj in E. subst v. apply H, I.
    - intros I. rewrite <- Ey. apply in_first; [|apply H, I]. intros u J. apply (A u y); [apply H, J|exact I].
  Qed.
  Lemma absent_said n : (forall v, In v (of_name m n) <-> S n v) -> (absent (object_set m) n <-> forall u, ~ S n u).
  Proof. intros H. rewrite absent_in. split; intros A v I; apply (A v), H, I. Qed.
End Set_.

(** ** Kinds *)
Definition every : list generator := [GenCrd; GenRbac; GenObject; GenApply; GenWebhook; GenSchemapatch].
Lemma object_kinds gs k t n : TablesSpec.known gs k t n ->
  (n = generate_name -> k = TBool) /\ (n = root_name -> k = TBool) /\ (n = legacy_name -> k = TRaw).
Proof.
  intros K. apply known_definition in K as (d & I & Et & En & Ek). apply in_definitions in I as (g & _ & I).
  assert (I' : In d (definitions every)) by (apply in_definitions; exists g; split; [destruct g; cbn; tauto|exact I]).
  assert (C : forallb (fun d => (if String.eqb (d_name d) generate_name then match p_kind (d_payload d) with TBool => true | _ => false end else true) &&
    ((if String.eqb (d_name d) root_name then match p_kind (d_payload d) with TBool => true | _ => false end else true) &&
     (if String.eqb (d_name d) legacy_name then match p_kind (d_payload d) with TRaw => true | _ => false end else true))) (definitions every) = true) by (vm_compute; reflexivity).
  rewrite forallb_forall in C. specialize (C d I'). cbv beta in C. apply andb_true_iff in C as (C1 & C2). apply andb_true_iff in C2 as (C2 & C3). rewrite En in C1, C2, C3. rewrite Ek in *. clear - C1 C2 C3.
  split; [|split]; intros ->; rewrite String.eqb_refl in *; destruct k; try discriminate; reflexivity.
Qed.
Lemma object_known gs : In GenObject gs ->
  (TablesSpec.known gs TBool DescribesPackage generate_name /\ TablesSpec.known gs TRaw DescribesPackage legacy_name) /\
  TablesSpec.known gs TBool DescribesType generate_name /\ TablesSpec.known gs TRaw DescribesType legacy_name.
Proof. intros I. repeat split; (exists GenObject; split; [exact I|apply spelled_object; cbn; tauto]). Qed.
Lemma kind_bool v : value_kind v = Some TBool -> exists b, object_value v = VBool b. Proof. destruct v as [m|c|r|h|wc|s|b|s| |]; try destruct m; try destruct c; cbn; intros E; try discriminate E; eauto. Qed.
Lemma kind_raw v : value_kind v = Some TRaw -> exists s, object_value v = VRaw s. Proof. destruct v as [m|c|r|h|wc|s|b|s| |]; try destruct m; try destruct c; cbn; intros E; try discriminate E; eauto. Qed.
Lemma kinds_typed gs t m : NoDup (map fst m) -> (forall n v, In v (of_name m n) -> exists k, value_kind v = Some k /\ TablesSpec.known gs k t n) -> typed (object_set m).
Proof.
  intros N H. constructor.
  - unfold object_set. rewrite map_map. exact N.
  - intros x F. apply (first_in m N) in F as (v & I & ->). destruct (H _ _ I) as (k & E & K). destruct (object_kinds _ _ _ _ K) as (Q & _). rewrite (Q eq_refl) in E. exact (kind_bool v E).
  - intros x F. apply (first_in m N) in F as (v & I & ->). destruct (H _ _ I) as (k & E & K). destruct (object_kinds _ _ _ _ K) as (_ & Q & _). rewrite (Q eq_refl) in E. exact (kind_bool v E).
  - intros x F. apply (first_in m N) in F as (v & I & ->). destruct (H _ _ I) as (k & E & K). destruct (object_kinds _ _ _ _ K) as (_ & _ & Q). rewrite (Q eq_refl) in E. exact (kind_raw v E).
Qed.

Section Package.
  Variable fval : string -> option Q.
  Variable json_read : string -> option json.
  Variable gs : list generator.
  Variable forder : SourceModel.file -> list (nat * list marker) -> list (nat * list marker).
  Variable vorder : list (string * list tvalue) -> list (string * list tvalue).
  Hypothesis forder_perm : forall f l, Permutation (forder f l) l.
  Hypothesis vorder_perm : forall l, Permutation (vorder l) l.
  Notation marks := (marks fval json_read gs forder).
  Notation pkg_set := (package_set fval json_read gs forder vorder).

  Lemma package_typed p m : Forall parsed_file p -> pkg_set p = Some (inl m) -> typed (object_set m).
  Proof.
    intros F E. apply (kinds_typed gs DescribesPackage); [exact (package_result_nodup fval json_read gs forder vorder forder_perm p m F E)|]. intros n v I.
    destruct (result_inl fval json_read gs forder vorder forder_perm _ _ F E) as (-> & _). rewrite (result_named fval json_read gs forder vorder vorder_perm) in I. apply in_flat_map in I as (f & _ & I). apply in_flat_map in I as (mk & _ & I).
    destruct (value_found fval json_read gs DescribesPackage n v mk I) as (k & V & K & _). eauto.
  Qed.
  Lemma type_typed gp m d : compiled gp -> pkg_set (gp_files gp) = Some (inl m) -> In d (gp_decls gp) -> typed (object_set (marks gp (td_node d))).
  Proof.
    intros C E I. apply (kinds_typed gs DescribesType); [exact (type_nodup fval json_read gs forder vorder forder_perm gp m d C E I)|]. intros n v Iv.
    destruct (cp_types gp C d I) as (f & before & top & h & after & If & Ih & Kh & Eh). pose proof (clean_nodes fval json_read gs forder vorder gp m (td_node d) E) as En. rewrite <- Eh in En, Iv.
    destruct (source_type_sound fval json_read gs forder forder_perm _ f before top h after _ n v (cp_files gp C) (cp_nodes gp C) If Ih Kh En Iv) as (c & text & k & _ & _ & _ & V & K). eauto.
  Qed.

  Hypothesis registered : In GenObject gs.
  Variable gp : gpackage.
  Variable m : SourceModel.mvals.
  Hypothesis C : compiled gp.
  Hypothesis E : pkg_set (gp_files gp) = Some (inl m).
  Hypothesis L : clear_comments fval json_read gs gp.

  Lemma package_wanted_iff : package_asked (object_set m) <-> package_wanted fval json_read gs gp.
  Proof.
    assert (Nd := package_result_nodup fval json_read gs forder vorder forder_perm _ m (cp_files gp C) E).
    destruct (object_known gs registered) as ((Kp1 & Kp2) & Kt1 & Kt2).
    assert (X1 := fun v => package_only_exact fval json_read gs forder vorder forder_perm vorder_perm _ m generate_name v _ _ (cp_files gp C) E Kt1 Kp1 (cl_package _ _ _ _ L)).
    assert (X2 := fun v => package_only_exact fval json_read gs forder vorder forder_perm vorder_perm _ m legacy_name v _ _ (cp_files gp C) E Kt2 Kp2 (cl_package _ _ _ _ L)).
    assert (A1 : forall u v, package_says fval json_read gs gp generate_name u -> package_says fval json_read gs gp generate_name v -> u = v) by (intros u v; apply (cl_agree _ _ _ _ L); cbn; auto).
    assert (A2 : forall u v, package_says fval json_read gs gp legacy_name u -> package_says fval json_read gs gp legacy_name v -> u = v) by (intros u v; apply (cl_agree _ _ _ _ L); cbn; auto).
    unfold package_asked, package_wanted.
    rewrite (first_said m Nd (package_says fval json_read gs gp) generate_name (VBool true) (TvBool true) X1 A1 eq_refl (fun v => value_bool v true)).
    rewrite (absent_said m Nd (package_says fval json_read gs gp) generate_name X1).
    assert (F : forall s, first (object_set m) legacy_name (VRaw s) <-> package_says fval json_read gs gp legacy_name (TvRaw s)).
    { intros s. apply (first_said m Nd (package_says fval json_read gs gp) legacy_name (VRaw s) (TvRaw s) X2 A2 eq_refl (fun v => value_raw v s)). }
    split; (intros [H|(H & s & Q & R)]; [left; exact H|right; split; [exact H|]; exists s; split; [apply F, Q|exact R]]).
  Qed.

  Variable d : tdecl.
  Hypothesis I : In d (gp_decls gp).
  Notation mt := (marks gp (td_node d)).
  Lemma object_wanted_iff : object_asked (object_set mt) <-> object_wanted fval json_read gs gp d.
  Proof.
    assert (Nd := type_nodup fval json_read gs forder vorder forder_perm gp m d C E I).
    assert (X := fun n v => type_exact fval json_read gs forder vorder forder_perm gp m d n v C E I (cl_types _ _ _ _ L d I)).
    assert (A : forall u v, type_says fval json_read gs gp d root_name u -> type_says fval json_read gs gp d root_name v -> u = v) by (intros u v; apply (cl_types_agree _ _ _ _ L d I); cbn; auto).
    unfold object_asked, object_wanted.
    rewrite (first_said mt Nd (type_says fval json_read gs gp d) root_name (VBool true) (TvBool true) (X _) A eq_refl (fun v => value_bool v true)).
    rewrite (absent_said mt Nd (type_says fval json_read gs gp d) root_name (X _)). rewrite (text_in mt Nd interfaces_name runtime_object), (X interfaces_name). reflexivity.
  Qed.
  Lemma type_wanted_iff : type_asked (object_set m) (object_set mt) <-> type_wanted fval json_read gs gp d.
  Proof.
    assert (Nd := type_nodup fval json_read gs forder vorder forder_perm gp m d C E I).
    assert (X := fun n v => type_exact fval json_read gs forder vorder forder_perm gp m d n v C E I (cl_types _ _ _ _ L d I)).
    assert (A1 : forall u v, type_says fval json_read gs gp d generate_name u -> type_says fval json_read gs gp d generate_name v -> u = v) by (intros u v; apply (cl_types_agree _ _ _ _ L d I); cbn; auto).
    assert (A2 : forall u v, type_says fval json_read gs gp d legacy_name u -> type_says fval json_read gs gp d legacy_name v -> u = v) by (intros u v; apply (cl_types_agree _ _ _ _ L d I); cbn; auto).
    unfold type_asked, type_wanted. rewrite package_wanted_iff, object_wanted_iff.
    rewrite (first_said mt Nd (type_says fval json_read gs gp d) generate_name (VBool true) (TvBool true) (X _) A1 eq_refl (fun v => value_bool v true)).
    rewrite (absent_said mt Nd (type_says fval json_read gs gp d) generate_name (X _)), (absent_said mt Nd (type_says fval json_read gs gp d) legacy_name (X _)).
    rewrite (first_said mt Nd (type_says fval json_read gs gp d) legacy_name (VRaw "true") (TvRaw "true") (X _) A2 eq_refl (fun v => value_raw v "true")). reflexivity.
  Qed.
End Package.
