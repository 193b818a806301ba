(** * C54: the help lists every marker that is registered once, under its group and in order *)

From Coq Require Import List String Ascii Bool Arith Sorting.Sorted Sorting.Permutation.
From Verif Require Import GoLib GoLibFacts RegistryModel RegistrySpec RegistryProofs ParseModel HelpModel HelpSpec.
From Verif Require MapFacts.
Import ListNotations.
Open Scope string_scope.
Open Scope list_scope.

(** ** What is registered *)

Definition help_of (hs : helps) (d : hdef) : option dhelp := mget Nat.eqb hs (p_pointer (d_payload d)).
Definition fields_once (d : hdef) : Prop := NoDup (map fst (d_fields (p_defn (d_payload d)))).

Lemma table_nodup ds t : NoDup (map fst (table payload (register_all payload ds) t)).
Proof.
  unfold register_all. induction ds as [|d ds IH] using rev_ind; [destruct t; constructor|].
  rewrite fold_left_app. cbn [fold_left]. unfold register. destruct t, (d_target d); cbn [table for_pkg for_type for_field] in *;
    try apply (MapFacts.mset_nodup _ _ _ String.eqb_eq); exact IH.
Qed.

Lemma table_in ds t n d : In (n, d) (table payload (register_all payload ds) t) <-> registered_as ds t n d.
Proof.
  rewrite <- table_iff. split; [apply (MapFacts.in_mget _ _ _ String.eqb_eq), table_nodup|apply (MapFacts.mget_in _ _ _ String.eqb_eq)].
Qed.

Section All.
Variable range_defs : list (string * hdef) -> list (string * hdef).
Hypothesis any_defs : is_order range_defs.
Notation all := (all_definitions range_defs).

Lemma all_in ds d : In d (all (register_all payload ds)) <-> in_force ds d.
Proof.
  assert (T : forall t, In d (map snd (range_defs (table payload (register_all payload ds) t))) <-> d_target d = t /\ in_force ds d).
  { intros t. rewrite in_map_iff. split.
    - intros ([n x] & E & I). cbn in E. subst x. apply (Permutation_in _ (any_defs _)), table_in in I.
      destruct I as (l1 & l2 & E & Et & En & L). split; [exact Et|]. exists l1, l2. rewrite Et, En. auto.
    - intros [Et F]. exists (d_name d, d). split; [reflexivity|]. apply (Permutation_in _ (Permutation_sym (any_defs _))), table_in. rewrite <- Et. exact F. }
  unfold all_definitions. rewrite !in_app_iff, (T DescribesPackage), (T DescribesType), (T DescribesField).
  split; [tauto|]. intros F. destruct (d_target d); tauto.
Qed.

Definition id_of (d : hdef) : target * string := (d_target d, d_name d).
Lemma all_nodup ds : NoDup (map id_of (all (register_all payload ds))).
Proof.
  assert (T : forall t, NoDup (map id_of (map snd (range_defs (table payload (register_all payload ds) t))))).
  { intros t. apply (Permutation_NoDup (l := map id_of (map snd (table payload (register_all payload ds) t)))).
    - apply Permutation_map, Permutation_map, Permutation_sym, any_defs.
    - assert (E : map id_of (map snd (table payload (register_all payload ds) t)) = map (pair t) (map fst (table payload (register_all payload ds) t))).
      { rewrite !map_map. apply map_ext_in. intros [n d] I. apply table_in in I. destruct I as (l1 & l2 & _ & <- & <- & _). reflexivity. }
      rewrite E. clear E. pose proof (table_nodup ds t) as N. induction N as [|k l A _ IH]; cbn; [constructor|]. constructor; [|exact IH].
      intros I. apply in_map_iff in I. destruct I as (x & X & I). injection X as X. subst x. exact (A I). }
  assert (D : forall t x, In x (map id_of (map snd (range_defs (table payload (register_all payload ds) t)))) -> fst x = t).
  { intros t x I. apply in_map_iff in I. destruct I as (d & <- & I). apply in_map_iff in I. destruct I as ([n d'] & E & I). cbn in E. subst d'.
    apply (Permutation_in _ (any_defs _)), table_in in I. destruct I as (l1 & l2 & _ & E & _). exact E. }
  assert (App : forall (l1 l2 : list (target * string)), NoDup l1 -> NoDup l2 -> (forall x, In x l1 -> In x l2 -> False) -> NoDup (l1 ++ l2)).
  { induction l1 as [|x l1 IH]; intros l2 N1 N2 X; [exact N2|]. cbn. inversion_clear N1. constructor.
    - rewrite in_app_iff. intros [I|I]; [auto|]. apply (X x); cbn; auto.
    - apply IH; auto. intros y I1 I2. apply (X y); cbn; auto. }
  unfold all_definitions. rewrite !map_app. apply App; [exact (T DescribesPackage)| |].
  - apply App; [exact (T DescribesType)|exact (T DescribesField)|]. intros x I1 I2. apply (D DescribesType) in I1. apply (D DescribesField) in I2. congruence.
  - intros x I1 I2. apply (D DescribesPackage) in I1. apply in_app_iff in I2. destruct I2 as [I2|I2]; [apply (D DescribesType) in I2|apply (D DescribesField) in I2]; congruence.
Qed.
End All.

(** ** The documentation of one definition *)

Lemma shown_string_of a s : shown a s -> forall o, type_string (for_argument a o) = Some s.
Proof. induction 1; intros o; cbn; auto. now rewrite IHshown. Qed.
Lemma optional_for a o : optional_of (for_argument a o) = o.
Proof. induction a; cbn; auto. Qed.

Lemma by_name_sorted (l : list field_doc) : NoDup (map fd_name l) ->
  StronglySorted (fun a b => str_ltb (fd_name a) (fd_name b) = true) (sort_by (fun a b => str_ltb (fd_name a) (fd_name b)) l).
Proof.
  intros N. assert (S := sort_by_sorted _ (fun a b : field_doc => str_ltb (fd_name a) (fd_name b)) (fun x y z => str_ltb_trans _ _ _) (fun x => str_ltb_irrefl _) (fun x y z => str_ltb_negtrans _ _ _) l).
  assert (N' : NoDup (map fd_name (sort_by (fun a b : field_doc => str_ltb (fd_name a) (fd_name b)) l))) by (apply (Permutation_NoDup (l := map fd_name l)); [apply Permutation_map, Permutation_sym, sort_by_perm|exact N]).
  revert N'. induction S as [|x m S IH F]; intros N'; constructor; [inversion_clear N'; auto|]. rewrite Forall_forall in *. intros y Y. specialize (F y Y). unfold le_of in F.
  apply str_leb_ltb; [unfold str_leb; now rewrite F|]. intros E. inversion_clear N'. apply H. rewrite E. now apply in_map.
Qed.

Section Doc.
Variable range_fields : list (string * detail) -> list (string * detail).
Variable shuffle_fields : list field_doc -> list field_doc.
Hypothesis any_fields : is_order range_fields.
Hypothesis any_shuffle : is_order shuffle_fields.

Lemma for_definition_documents d h : fields_once d -> documents h d (for_definition range_fields shuffle_fields d h).
Proof.
  intros N. unfold for_definition. set (hh := match h with Some h => h | None => dhelp0 end). set (D := p_defn (d_payload d)) in *.
  set (mk := fun x : string * detail => mkFieldDoc (fst x) (match mget String.eqb (d_fields D) (fst x) with Some f => for_argument (f_arg f) (f_optional f) | None => for_argument AInvalid false end) (snd x)).
  set (fs := shuffle_fields (map mk (range_fields (fields_help hh D)))).
  assert (P : Permutation fs (map mk (fields_help hh D))) by (subst fs; rewrite any_shuffle; apply Permutation_map, any_fields).
  assert (Names : map fd_name (map mk (fields_help hh D)) = map fst (d_fields D)) by (unfold fields_help; rewrite !map_map; reflexivity).
  split; cbn [md_name md_target md_detail md_category md_deprecated md_fields]; auto.
  - destruct h; auto.
  - apply by_name_sorted. apply (Permutation_NoDup (l := map fst (d_fields D))); [|exact N]. rewrite <- Names. apply Permutation_map, Permutation_sym, P.
  - intros f I. apply sort_by_in in I. apply (Permutation_in _ P) in I. apply in_map_iff in I. destruct I as (x & <- & I). unfold fields_help in I.
    apply in_map_iff in I. destruct I as ([n g] & <- & I). exists g. cbn [mk fst snd fd_name fd_argument fd_detail]. split; [exact I|].
    assert (M : mget String.eqb (d_fields D) n = Some g) by exact (MapFacts.in_mget _ _ _ String.eqb_eq _ _ _ N I). rewrite M. split; [apply optional_for|]. split; [intros s S; now apply shown_string_of|].
    unfold text_for. subst hh. destruct h as [x|]; [|reflexivity]. destruct (mget String.eqb (h_fields x) (f_name g)); auto.
  - intros n g I. assert (J : In n (map fd_name fs)).
    { apply (Permutation_in (l := map fst (d_fields D))); [rewrite <- Names; apply Permutation_map, Permutation_sym, P|]. exact (in_map fst _ _ I). }
    apply in_map_iff in J. destruct J as (f & E & J). exists f. split; [now apply sort_by_in|exact E].
Qed.

End Doc.

(** What is documented is determined by the definition and its help. *)
Lemma for_definition_stable rf sf rf' sf' d h : is_order rf -> is_order sf -> is_order rf' -> is_order sf' -> fields_once d ->
  for_definition rf sf d h = for_definition rf' sf' d h.
Proof.
  intros A B A' B' N. assert (D := for_definition_documents rf sf A B d h N). assert (D' := for_definition_documents rf' sf' A' B' d h N).
  assert (S := dc_sorted _ _ _ D). assert (S' := dc_sorted _ _ _ D'). clear D D'. unfold for_definition in *. cbn [md_fields] in S, S'. f_equal.
  apply (strongly_sorted_unique _ (fun a b => str_ltb (fd_name a) (fd_name b) = true)); auto.
  - intros x y X Y. apply str_ltb_asym in X. congruence.
  - rewrite !sort_by_perm, B, B'. apply Permutation_map. now rewrite A, A'.
Qed.

(** ** The whole help *)

Section Help.
Variable range_defs : list (string * hdef) -> list (string * hdef).
Variable range_fields : list (string * detail) -> list (string * detail).
Variable range_groups : list (string * list hdef) -> list (string * list hdef).
Variable shuffle : list hdef -> list hdef.
Variable shuffle_fields : list field_doc -> list field_doc.
Hypothesis any_defs : is_order range_defs.
Hypothesis any_fields : is_order range_fields.
Hypothesis any_groups : is_order range_groups.
Hypothesis any_shuffle : is_order shuffle.
Hypothesis any_shuffle_fields : is_order shuffle_fields.
Notation by_category := (by_category range_defs range_fields range_groups shuffle shuffle_fields).
Notation all := (all_definitions range_defs).
Notation doc := (for_definition range_fields shuffle_fields).

Section One.
Variable ds : list hdef.
Variable hs : helps.
Variable s : sort_group.
Definition key (d : hdef) : string := sg_group s (d_name d) (help_of hs d).
Definition members (g : string) : list hdef := filter (fun d => String.eqb g (key d)) (all (register_all payload ds)).
Definition less (a b : hdef) : bool := sg_less s (d_name a) (d_name b).

Lemma by_category_eq : by_category (register_all payload ds) hs s =
  map (fun g => mkCategoryDoc g (map (fun d => doc d (help_of hs d)) (sort_by less (shuffle (members g)))))
    (sort_strings (map fst (group_by _ _ String.eqb key (all (register_all payload ds))))).
Proof.
  unfold HelpModel.by_category. change (fold_left _ _ []) with (group_by _ _ String.eqb key (all (register_all payload ds))).
  rewrite (sort_strings_perm_eq (map fst (range_groups _)) (map fst (group_by _ _ String.eqb key (all (register_all payload ds))))) by (apply Permutation_map, any_groups).
  apply map_ext. intros g. unfold members. rewrite <- (group_by_slice _ _ String.eqb String.eqb_eq key). reflexivity.
Qed.

Lemma category_in g : In g (map fst (group_by _ _ String.eqb key (all (register_all payload ds)))) <-> exists d, in_force ds d /\ key d = g.
Proof.
  change (map fst ?m) with (mkeys m). rewrite (group_by_keys _ _ String.eqb String.eqb_eq). rewrite in_map_iff. split.
  - intros (d & E & I). exists d. split; [|exact E]. now apply (all_in _ any_defs).
  - intros (d & F & E). exists d. split; [exact E|]. now apply (all_in _ any_defs).
Qed.
Lemma members_in g d : In d (members g) <-> in_force ds d /\ key d = g.
Proof. unfold members. rewrite filter_In, (all_in _ any_defs), String.eqb_eq. intuition congruence. Qed.
Lemma sorted_in g d : In d (sort_by less (shuffle (members g))) <-> in_force ds d /\ key d = g.
Proof. rewrite sort_by_in, <- members_in. split; apply Permutation_in; [|apply Permutation_sym]; apply any_shuffle. Qed.

Lemma groups_nodup : NoDup (sort_strings (map fst (group_by _ _ String.eqb key (all (register_all payload ds))))).
Proof. apply (Permutation_NoDup (Permutation_sym (sort_strings_perm _))), (group_by_nodup _ _ String.eqb String.eqb_eq). Qed.

Lemma strictly_sorted l : NoDup l -> StronglySorted (fun a b => str_ltb a b = true) (sort_strings l).
Proof.
  intros N. assert (N' := Permutation_NoDup (Permutation_sym (sort_strings_perm l)) N). assert (S := sort_strings_sorted l). induction S as [|x m S IH F]; constructor.
  - inversion_clear N'. auto.
  - rewrite Forall_forall in *. intros y Y. apply str_leb_ltb; [apply F, Y|]. intros ->. inversion_clear N'. auto.
Qed.
End One.

(** Whatever the order of maps and of sorting equals: every definition in force is documented in the category of its group, nothing else is,
    each is once; the categories are in order and not empty; and the markers of a category are in order. *)
Theorem help_complete ds hs s : strict_weak (sg_less s) -> (forall d, in_force ds d -> fields_once d) ->
  let cs := by_category (register_all payload ds) hs s in
  (forall c m, In c cs -> In m (cd_markers c) -> exists d, in_force ds d /\ cd_category c = sg_group s (d_name d) (help_of hs d) /\ documents (help_of hs d) d m) /\
  (forall d, in_force ds d -> exists c m, In c cs /\ In m (cd_markers c) /\ cd_category c = sg_group s (d_name d) (help_of hs d) /\ documents (help_of hs d) d m) /\
  NoDup (flat_map (fun c => map (fun m => (md_target m, md_name m)) (cd_markers c)) cs) /\
  StronglySorted (fun a b => str_ltb (cd_category a) (cd_category b) = true) cs /\
  (forall c, In c cs -> cd_markers c <> []) /\
  (forall c, In c cs -> StronglySorted (fun a b => sg_less s (md_name b) (md_name a) = false) (cd_markers c)).
Proof.
  intros W N cs. subst cs. rewrite by_category_eq.
  assert (Docs : forall d, in_force ds d -> documents (help_of hs d) d (doc d (help_of hs d))) by (intros d F; apply for_definition_documents; auto).
  split; [|split; [|split; [|split; [|split]]]].
  - intros c m C M. apply in_map_iff in C. destruct C as (g & <- & _). cbn [cd_markers cd_category] in *. apply in_map_iff in M. destruct M as (d & <- & M).
    apply sorted_in in M. destruct M as [F <-]. exists d. auto.
  - intros d F. eexists _, _. split; [apply in_map_iff; exists (key hs s d); split; [reflexivity|]; apply sort_strings_in, category_in; eauto|].
    cbn [cd_markers cd_category]. split; [apply in_map_iff; exists d; split; [reflexivity|now apply sorted_in]|]. split; auto.
  - assert (X : forall gs, NoDup gs -> NoDup (flat_map (fun g => map id_of (sort_by (less s) (shuffle (members ds hs s g)))) gs)).
    { induction gs as [|g gs IH]; intros G; [constructor|]. cbn. inversion_clear G. specialize (IH H0).
      assert (A : NoDup (map id_of (sort_by (less s) (shuffle (members ds hs s g))))).
      { apply (Permutation_NoDup (l := map id_of (members ds hs s g))); [apply Permutation_map; rewrite sort_by_perm; apply Permutation_sym, any_shuffle|].
        unfold members. pose proof (all_nodup _ any_defs ds) as B. induction (all (register_all payload ds)) as [|d l IHl]; [constructor|]. cbn in B |- *. inversion_clear B.
        destruct (String.eqb g (key hs s d)); auto. cbn. constructor; auto. intros I. apply H1. apply in_map_iff in I. destruct I as (y & <- & I). apply filter_In in I. apply in_map, I. }
      assert (Dis : forall x, In x (map id_of (sort_by (less s) (shuffle (members ds hs s g)))) -> In x (flat_map (fun g => map id_of (sort_by (less s) (shuffle (members ds hs s g)))) gs) -> False).
      { intros x I1 I2. apply in_map_iff in I1. destruct I1 as (d & <- & I1). apply in_flat_map in I2. destruct I2 as (g' & G' & I2). apply in_map_iff in I2. destruct I2 as (d' & E & I2).
        apply sorted_in in I1, I2. destruct I1 as [F1 <-], I2 as [F2 <-]. assert (d' = d) as ->; [|auto]. injection E as E1 E2. unfold in_force in F2. rewrite E1, E2 in F2. exact (registered_unique _ _ _ _ _ _ F2 F1). }
      clear H H0. revert A Dis. generalize (map id_of (sort_by (less s) (shuffle (members ds hs s g)))). induction l as [|x l IHl]; intros A Dis; [exact IH|]. cbn. inversion_clear A. constructor.
      - rewrite in_app_iff. intros [I|I]; [auto|]. apply (Dis x); cbn; auto.
      - apply IHl; auto. intros y I1 I2. apply (Dis y); cbn; auto. }
    specialize (X _ (groups_nodup ds hs s)). revert X. generalize (sort_strings (map fst (group_by _ _ String.eqb (key hs s) (all (register_all payload ds))))). intros gs X.
    rewrite flat_map_concat_map, map_map, <- flat_map_concat_map. cbn [cd_markers].
    assert (Inj : forall (l : list (target * string)), NoDup l -> NoDup (map (fun x => (word (fst x), snd x)) l)).
    { induction 1 as [|x l A _ IH]; cbn; constructor; auto. intros I. apply in_map_iff in I. destruct I as (y & E & I). apply A. assert (x = y) as ->; [|exact I].
      destruct x as [t n], y as [t' n']. cbn in E. injection E as E1 E2. subst n'. destruct t, t'; try discriminate E1; reflexivity. }
    apply Inj in X. rewrite flat_map_concat_map, concat_map, map_map in X. rewrite flat_map_concat_map.
    erewrite map_ext; [exact X|]. intros g. rewrite !map_map. apply map_ext. intros d. unfold id_of. cbn. now destruct (d_target d).
  - assert (S := strictly_sorted _ (group_by_nodup _ _ String.eqb String.eqb_eq (key hs s) (all (register_all payload ds)))). unfold mkeys in S.
    induction S as [|g gs S IH F]; cbn; constructor; auto. rewrite Forall_forall in *. intros c C. apply in_map_iff in C. destruct C as (g' & <- & G). cbn. now apply F.
  - intros c C. apply in_map_iff in C. destruct C as (g & <- & G). cbn [cd_markers]. apply sort_strings_in, category_in in G. destruct G as (d & F & K).
    intros E. apply map_eq_nil in E. assert (I : In d (sort_by (less s) (shuffle (members ds hs s g)))) by (apply sorted_in; auto). rewrite E in I. exact I.
  - intros c C. apply in_map_iff in C. destruct C as (g & <- & _). cbn [cd_markers].
    assert (S := sort_by_sorted _ (less s) (fun x y z => sw_trans _ W _ _ _) (fun x => sw_irrefl _ W _) (fun x y z => sw_incomparable _ W _ _ _) (shuffle (members ds hs s g))).
    induction S as [|d l S IH F]; cbn [map]; constructor; auto. rewrite Forall_forall in *. intros m M. apply in_map_iff in M. destruct M as (d' & <- & M). exact (F d' M).
Qed.
End Help.

(** If the comparison tells apart the definitions of a group, the help does not depend on any order. *)
Definition told_apart (ds : list hdef) (hs : helps) (s : sort_group) : Prop :=
  forall d d', in_force ds d -> in_force ds d' -> sg_group s (d_name d) (help_of hs d) = sg_group s (d_name d') (help_of hs d') ->
    sg_less s (d_name d) (d_name d') = false -> sg_less s (d_name d') (d_name d) = false -> d = d'.

Theorem help_stable ds hs s rd rf rg sh sf rd' rf' rg' sh' sf' :
  is_order rd -> is_order rf -> is_order rg -> is_order sh -> is_order sf -> is_order rd' -> is_order rf' -> is_order rg' -> is_order sh' -> is_order sf' ->
  strict_weak (sg_less s) -> (forall d, in_force ds d -> fields_once d) -> told_apart ds hs s ->
  by_category rd rf rg sh sf (register_all payload ds) hs s = by_category rd' rf' rg' sh' sf' (register_all payload ds) hs s.
Proof.
  intros A B C D E A' B' C' D' E' W N T. rewrite !by_category_eq by assumption.
  assert (P : Permutation (all_definitions rd (register_all payload ds)) (all_definitions rd' (register_all payload ds))).
  { unfold all_definitions. repeat apply Permutation_app; apply Permutation_map; now rewrite A, A'. }
  rewrite (sort_strings_perm_eq (map fst (group_by _ _ String.eqb (key hs s) (all_definitions rd (register_all payload ds)))) (map fst (group_by _ _ String.eqb (key hs s) (all_definitions rd' (register_all payload ds))))).
  2:{ apply NoDup_Permutation; try apply (group_by_nodup _ _ String.eqb String.eqb_eq). intros g. now rewrite !category_in. }
  apply map_ext. intros g. f_equal.
  assert (S : sort_by (less s) (sh (members rd ds hs s g)) = sort_by (less s) (sh' (members rd' ds hs s g))).
  { apply (strongly_sorted_unique_on _ (le_of _ (less s))).
    - intros x y X Y L1 L2. apply sorted_in in X, Y; auto. destruct X as [X X'], Y as [Y Y']. apply T; auto. unfold key in *. congruence.
    - apply sort_by_sorted; intros; [eapply (sw_trans _ W)|apply (sw_irrefl _ W)|eapply (sw_incomparable _ W)]; eassumption.
    - apply sort_by_sorted; intros; [eapply (sw_trans _ W)|apply (sw_irrefl _ W)|eapply (sw_incomparable _ W)]; eassumption.
    - rewrite !sort_by_perm, D, D'. unfold members. revert P. generalize (all_definitions rd (register_all payload ds)), (all_definitions rd' (register_all payload ds)).
      intros l l' P. induction P; cbn; repeat match goal with |- context [String.eqb g ?x] => destruct (String.eqb g x) end; auto; [apply perm_swap|eapply Permutation_trans; eassumption]. }
  rewrite S. apply map_ext_in. intros d I. apply sorted_in in I; auto. apply for_definition_stable; auto. now apply N.
Qed.

(** ** The two ways of sorting *)

Theorem both_strict_weak : strict_weak (sg_less sort_by_category) /\ strict_weak (sg_less sort_by_option).
Proof.
  split; split; cbn [sg_less sort_by_category sort_by_option].
  - apply str_ltb_irrefl.
  - apply str_ltb_trans.
  - apply str_ltb_negtrans.
  - intros a. unfold option_less. destruct (option_key a) as [g r]. rewrite String.eqb_refl. apply str_ltb_irrefl.
  - intros a b c. unfold option_less. destruct (option_key a) as [ga ra], (option_key b) as [gb rb], (option_key c) as [gc rc].
    destruct (String.eqb_spec ga gb) as [->|N1]; destruct (String.eqb_spec gb gc) as [->|N2]; cbn [negb].
    + rewrite ?String.eqb_refl. apply str_ltb_trans.
    + auto.
    + destruct (String.eqb_spec ga gc); [contradiction|]. auto.
    + intros L1 L2. pose proof (str_ltb_trans _ _ _ L2 L1) as L. destruct (String.eqb_spec ga gc) as [->|]; auto. rewrite str_ltb_irrefl in L. discriminate.
  - intros a b c. unfold option_less. destruct (option_key a) as [ga ra], (option_key b) as [gb rb], (option_key c) as [gc rc].
    destruct (String.eqb_spec ga gb) as [->|N1]; destruct (String.eqb_spec gb gc) as [->|N2]; cbn [negb].
    + rewrite ?String.eqb_refl. apply str_ltb_negtrans.
    + auto.
    + destruct (String.eqb_spec ga gc); [contradiction|]. auto.
    + intros L1 L2. pose proof (str_ltb_negtrans _ _ _ L2 L1) as L. destruct (String.eqb_spec ga gc) as [->|]; auto.
      exfalso. apply N1. apply str_ltb_total; auto.
Qed.

Lemma parts_split s l : parts s l -> split_char ":" s = l.
Proof.
  induction 1 as [s N|s r l N _ IH]; [now apply split_char_nosep|]. change (s ++ ":" ++ r)%string with (s ++ String ":" r)%string. rewrite split_char_app_sep by exact N. now rewrite IH.
Qed.
Lemma split_parts s : parts s (split_char ":" s).
Proof.
  induction s as [|a s IH]; [constructor; reflexivity|]. cbn [split_char]. destruct (Ascii.eqb_spec a ":") as [->|N].
  - apply (parts_more "" s); auto.
  - apply Ascii.eqb_neq in N. inversion IH as [x X E1 E2|x r l X P E1 E2].
    + constructor. cbn. now rewrite N.
    + cbn [String.append] in E2. change (":" ++ r)%string with (String ":" r). rewrite <- E2. change (String a (x ++ String ":" r))%string with (String a x ++ ":" ++ r)%string. constructor; auto. cbn. now rewrite N.
Qed.
Lemma parts_unique s l l' : parts s l -> parts s l' -> l = l'.
Proof. intros A B. apply parts_split in A, B. congruence. Qed.

(** Options are listed by generator, from the last, and by rule, from the first. *)
Theorem options_order a b ga ra gb rb : option_of a ga ra -> option_of b gb rb ->
  (sg_less sort_by_option a b = true <-> str_ltb gb ga = true \/ ga = gb /\ str_ltb ra rb = true).
Proof.
  assert (K : forall n g r, option_of n g r -> option_key n = (g, r)).
  { unfold option_key. intros n g r [g' P|n' o r' P|n' o g' r' P]; apply parts_split in P; now rewrite P. }
  intros A B. apply K in A, B. cbn. unfold option_less. rewrite A, B. destruct (String.eqb_spec ga gb) as [->|N]; cbn [negb].
  - rewrite str_ltb_irrefl. split; [auto|]. intros [X|[_ X]]; [discriminate|exact X].
  - split; [auto|]. intros [X|[X _]]; [exact X|contradiction].
Qed.

(** Their groups, whatever the help: by the number of parts of the name. *)
Theorem options_group n l h : parts n l ->
  (l = ["paths"] -> sg_group sort_by_option n h = "generic") /\
  (forall g, l = [g] -> g <> "paths" -> sg_group sort_by_option n h = "generators") /\
  (List.length l = 2 -> sg_group sort_by_option n h = "output rules (optionally as output:<generator>:...)") /\
  (List.length l > 2 -> sg_group sort_by_option n h = "").
Proof.
  intros P. apply parts_split in P. cbn. unfold option_group. rewrite P. split; [|split; [|split]].
  - now intros ->.
  - intros g -> N. destruct (String.eqb_spec g "paths"); [contradiction|reflexivity].
  - destruct l as [|x [|y [|z l]]]; try discriminate. reflexivity.
  - destruct l as [|x [|y [|z l]]]; cbn; auto; intros L; exfalso; repeat apply le_S_n in L; inversion L.
Qed.

(** Markers are in the category that their help says. *)
Theorem markers_category n h : sg_group sort_by_category n h = match h with Some x => h_category x | None => "" end.
Proof. destruct h; reflexivity. Qed.

(** ** What is printed *)

Theorem printed_exact cs c : In c (printed cs) <-> In c cs /\ cd_category c <> "".
Proof. unfold printed. rewrite filter_In, negb_true_iff, String.eqb_neq. reflexivity. Qed.

(** If no category has one name for two targets, the help of markers does not depend on any order. *)
Theorem markers_stable ds hs rd rf rg sh sf rd' rf' rg' sh' sf' :
  is_order rd -> is_order rf -> is_order rg -> is_order sh -> is_order sf -> is_order rd' -> is_order rf' -> is_order rg' -> is_order sh' -> is_order sf' ->
  (forall d, in_force ds d -> fields_once d) ->
  (forall d d', in_force ds d -> in_force ds d' -> d_name d = d_name d' ->
     match help_of hs d with Some x => h_category x | None => "" end = match help_of hs d' with Some x => h_category x | None => "" end -> d_target d = d_target d') ->
  by_category rd rf rg sh sf (register_all payload ds) hs sort_by_category = by_category rd' rf' rg' sh' sf' (register_all payload ds) hs sort_by_category.
Proof.
  intros. apply help_stable; auto; [apply both_strict_weak|]. intros d d' F F' G L L'. cbn in G, L, L'.
  assert (N : d_name d = d_name d') by now apply str_ltb_total. assert (T : d_target d = d_target d') by (apply H10; auto).
  unfold in_force in F. rewrite N, T in F. exact (registered_unique _ _ _ _ _ _ F F').
Qed.

(** The options of main: the names of generators, of rules and of common options have no colon. *)
Record main_options (ds : list hdef) (generators rules common : list string) : Prop := {
  mo_target : forall d, in_force ds d -> d_target d = DescribesPackage;
  mo_names : forall n, In n (option_names generators rules common) <-> exists d, in_force ds d /\ d_name d = n;
  mo_plain : forall n, In n (generators ++ rules ++ common) -> has_char ":" n = false }.

Inductive option_kind (generators rules common : list string) : string -> Prop :=
| ok_plain n : In n generators \/ In n common -> parts n [n] -> option_kind generators rules common n
| ok_rule r : In r rules -> parts ("output:" ++ r) ["output"; r] -> option_kind generators rules common ("output:" ++ r)
| ok_generator g r : In g generators -> In r rules -> parts ("output:" ++ g ++ ":" ++ r) ["output"; g; r] -> option_kind generators rules common ("output:" ++ g ++ ":" ++ r).

Lemma kinds ds generators rules common n : main_options ds generators rules common -> In n (option_names generators rules common) -> option_kind generators rules common n.
Proof.
  intros M I. assert (P := mo_plain _ _ _ _ M). unfold option_names in I. rewrite !in_app_iff, in_flat_map, in_map_iff in I. destruct I as [(g & G & [<-|R])|[(r & <- & R)|I]].
  - constructor; auto. constructor. apply P, in_or_app. auto.
  - apply in_map_iff in R. destruct R as (r & <- & R). apply ok_generator; auto. apply (parts_more "output"); [reflexivity|]. apply (parts_more g); [apply P, in_or_app; auto|]. constructor.
    apply P. rewrite !in_app_iff. auto.
  - apply ok_rule; auto. apply (parts_more "output"); [reflexivity|]. constructor. apply P. rewrite !in_app_iff. auto.
  - constructor; auto. constructor. apply P. rewrite !in_app_iff. auto.
Qed.

Lemma group_of_parts n l h : parts n l -> (List.length l = 1 -> sg_group sort_by_option n h = "generic" \/ sg_group sort_by_option n h = "generators").
Proof.
  intros P L. destruct l as [|x [|y l]]; try discriminate L. destruct (string_dec x "paths") as [->|N]; [left|right].
  - now apply (options_group n _ h P).
  - now apply (options_group n _ h P) with (g := x).
Qed.

Lemma same_key a b ga ra gb rb : option_of a ga ra -> option_of b gb rb -> sg_less sort_by_option a b = false -> sg_less sort_by_option b a = false -> ga = gb /\ ra = rb.
Proof.
  intros A B L L'. assert (X := options_order _ _ _ _ _ _ A B). assert (Y := options_order _ _ _ _ _ _ B A).
  assert (G : ga = gb).
  { apply str_ltb_total; [destruct (str_ltb ga gb) eqn:E|destruct (str_ltb gb ga) eqn:E]; auto; exfalso; [rewrite (proj2 Y) in L' by auto|rewrite (proj2 X) in L by auto]; discriminate. }
  split; [exact G|]. apply str_ltb_total; [destruct (str_ltb ra rb) eqn:E|destruct (str_ltb rb ra) eqn:E]; auto; exfalso; [rewrite (proj2 X) in L by auto|rewrite (proj2 Y) in L' by auto]; discriminate.
Qed.

(** The help of main's options does not depend on any order. *)
Theorem options_stable ds hs generators rules common rd rf rg sh sf rd' rf' rg' sh' sf' :
  is_order rd -> is_order rf -> is_order rg -> is_order sh -> is_order sf -> is_order rd' -> is_order rf' -> is_order rg' -> is_order sh' -> is_order sf' ->
  (forall d, in_force ds d -> fields_once d) -> main_options ds generators rules common ->
  by_category rd rf rg sh sf (register_all payload ds) hs sort_by_option = by_category rd' rf' rg' sh' sf' (register_all payload ds) hs sort_by_option.
Proof.
  intros ? ? ? ? ? ? ? ? ? ? Once M. apply help_stable; auto; [apply both_strict_weak|]. intros d d' F F' G L L'.
  assert (N : d_name d = d_name d').
  { assert (K : option_kind generators rules common (d_name d)) by (apply (kinds ds); [exact M|]; apply (mo_names _ _ _ _ M); eauto).
    assert (K' : option_kind generators rules common (d_name d')) by (apply (kinds ds); [exact M|]; apply (mo_names _ _ _ _ M); eauto).
    revert K K' G L L'. generalize (help_of hs d), (help_of hs d'), (d_name d), (d_name d'). intros h h' a b K K' G L L'.
    destruct K as [a I P|r I P|g r I J P]; destruct K' as [b I' P'|r' I' P'|g' r' I' J' P'];
      try (exfalso;
           repeat match goal with
           | Q : parts ?n ?l |- _ => first
             [ destruct (group_of_parts n l h Q eq_refl) as [U|U]; destruct (group_of_parts n l h' Q eq_refl) as [V|V]
             | pose proof (proj1 (proj2 (proj2 (options_group n l h Q))) eq_refl); pose proof (proj1 (proj2 (proj2 (options_group n l h' Q))) eq_refl)
             | pose proof (proj2 (proj2 (proj2 (options_group n l h Q))) (le_n 3)); pose proof (proj2 (proj2 (proj2 (options_group n l h' Q))) (le_n 3)) ]; clear Q
           end; congruence).
    - destruct (same_key a b a "" b "" (op_generator a P) (op_generator b P') L L') as [E _]. exact E.
    - destruct (same_key _ _ _ _ _ _ (op_rule _ _ _ P) (op_rule _ _ _ P') L L') as [_ ->]. reflexivity.
    - destruct (same_key _ _ _ _ _ _ (op_generator_rule _ _ _ _ P) (op_generator_rule _ _ _ _ P') L L') as [-> ->]. reflexivity. }
  assert (T : d_target d = d_target d') by (rewrite !(mo_target _ _ _ _ M) by assumption; reflexivity).
  unfold in_force in F. rewrite N, T in F. exact (registered_unique _ _ _ _ _ _ F F').
Qed.

(** Printed are the generators, the common options and the rules, and not the rules of each generator. *)
Theorem options_printed ds hs generators rules common rd rf rg sh sf :
  is_order rd -> is_order rf -> is_order rg -> is_order sh -> is_order sf ->
  (forall d, in_force ds d -> fields_once d) -> main_options ds generators rules common ->
  forall n, (exists c m, In c (printed (by_category rd rf rg sh sf (register_all payload ds) hs sort_by_option)) /\ In m (cd_markers c) /\ md_name m = n) <->
    In n generators \/ In n common \/ exists r, In r rules /\ n = ("output:" ++ r)%string.
Proof.
  intros A B C D E Once M n. destruct (help_complete rd rf rg sh sf A B C D E ds hs sort_by_option (proj2 both_strict_weak) Once) as (Sound & Complete & _). split.
  - intros (c & m & Ic & Im & <-). apply printed_exact in Ic. destruct Ic as [Ic Nc]. destruct (Sound c m Ic Im) as (d & F & Ec & Doc). rewrite (dc_name _ _ _ Doc).
    assert (K : option_kind generators rules common (d_name d)) by (apply (kinds ds); [exact M|]; apply (mo_names _ _ _ _ M); eauto).
    rewrite Ec in Nc. destruct K as [a I P|r I P|g r I J P]; [tauto|eauto|]. exfalso. apply Nc. apply (options_group _ _ (help_of hs d) P). cbn. auto.
  - intros H.
    assert (K : In n (option_names generators rules common) /\ exists l, parts n l /\ (List.length l = 1 \/ List.length l = 2)).
    { assert (Pl := mo_plain _ _ _ _ M). unfold option_names. rewrite !in_app_iff, in_flat_map, in_map_iff. destruct H as [I|[I|(r & R & ->)]].
      - split; [left; exists n; cbn; auto|]. exists [n]. split; auto. constructor. apply Pl, in_or_app. auto.
      - split; [auto|]. exists [n]. split; auto. constructor. apply Pl. rewrite !in_app_iff. auto.
      - split; [right; left; eauto|]. exists ["output"; r]. split; auto. apply (parts_more "output"); [reflexivity|]. constructor. apply Pl. rewrite !in_app_iff. auto. }
    destruct K as (K & l & P & Len). apply (mo_names _ _ _ _ M) in K. destruct K as (d & F & <-). destruct (Complete d F) as (c & m & Ic & Im & Ec & Doc).
    exists c, m. split; [|split; [exact Im|exact (dc_name _ _ _ Doc)]]. apply printed_exact. split; [exact Ic|]. rewrite Ec.
    destruct Len as [Len|Len]; [destruct (group_of_parts _ _ (help_of hs d) P Len) as [U|U]; rewrite U; discriminate|].
    rewrite (proj1 (proj2 (proj2 (options_group _ _ (help_of hs d) P))) Len). discriminate.
Qed.

(** ** Types of arguments *)

(** To say the type of an argument never panics; the type said is of the form [][]...t. *)
Theorem types_total a o : type_string (for_argument a o) <> None.
Proof. revert o. induction a; intros o; cbn; try discriminate; auto. specialize (IHa (match a with APtr _ => true | _ => false end)). destruct (type_string _); [discriminate|contradiction]. Qed.

(** ** What does not hold *)

(** Numbers and maps have no name. *)
Theorem types_shown_refuted : type_string (for_argument ANum false) = Some "" /\ type_string (for_argument (AMap AStr) false) = Some "" /\ type_string (for_argument (ASlice ANum) false) = Some "[]".
Proof. repeat split; reflexivity. Qed.

Definition x_def (p : nat) (n : string) (t : target) : hdef := mkDef n t (mkPayload p (mkDefinition [("", mkField "" AAny false)] true)).
Definition x_enum : list hdef := [x_def 0 "kubebuilder:validation:Enum" DescribesType; x_def 1 "kubebuilder:validation:Enum" DescribesField; x_def 2 "my:marker" DescribesType].
Definition x_helps : helps := [(0, mkDHelp (mkDetail "s" "d") "CRD validation" None []); (1, mkDHelp (mkDetail "s" "d") "CRD validation" None [])].

(** A marker for types and for fields: which comes first is left to sort.Slice. *)
Theorem markers_stable_refuted : exists ds hs sh sh', is_order sh /\ is_order sh' /\ (forall d, in_force ds d -> fields_once d) /\
  by_category (fun l => l) (fun l => l) (fun l => l) sh (fun l => l) (register_all payload ds) hs sort_by_category <>
  by_category (fun l => l) (fun l => l) (fun l => l) sh' (fun l => l) (register_all payload ds) hs sort_by_category.
Proof.
  exists x_enum, x_helps, (fun l => l), (@rev hdef). split; [intros l; apply Permutation_refl|]. split; [intros l; apply Permutation_sym, Permutation_rev|]. split.
  - intros d (l1 & l2 & E & _). assert (I : In d x_enum) by (rewrite E; apply in_or_app; cbn; auto). cbn in I. destruct I as [<-|[<-|[<-|[]]]]; repeat constructor; cbn; tauto.
  - vm_compute. discriminate.
Qed.

(** A marker without help is not printed. *)
Theorem markers_printed_refuted : exists ds hs d, in_force ds d /\ forall c m,
  In c (printed (by_category (fun l => l) (fun l => l) (fun l => l) (fun l => l) (fun l => l) (register_all payload ds) hs sort_by_category)) -> In m (cd_markers c) -> md_name m <> d_name d.
Proof.
  exists x_enum, x_helps, (x_def 2 "my:marker" DescribesType). split.
  - exists [x_def 0 "kubebuilder:validation:Enum" DescribesType; x_def 1 "kubebuilder:validation:Enum" DescribesField], []. repeat split. intros x [].
  - intros c m C I. vm_compute in C. destruct C as [<-|[]]. cbn in I. destruct I as [<-|[<-|[]]]; discriminate.
Qed.

(** ** Cases *)

Definition x_options : list hdef :=
  map (fun n => mkDef n DescribesPackage (mkPayload 7 (mkDefinition [] true)))
    ["crd"; "output:crd:dir"; "output:crd:none"; "rbac"; "output:rbac:dir"; "output:rbac:none"; "output:dir"; "output:none"; "paths"].

Example options_case : map (fun c => (cd_category c, map md_name (cd_markers c)))
    (by_category (fun l => l) (fun l => l) (@rev _) (@rev _) (fun l => l) (register_all payload x_options) [] sort_by_option) =
  [("", ["output:rbac:dir"; "output:rbac:none"; "output:crd:dir"; "output:crd:none"]); ("generators", ["rbac"; "crd"]); ("generic", ["paths"]);
   ("output rules (optionally as output:<generator>:...)", ["output:dir"; "output:none"])].
Proof. reflexivity. Qed.

Lemma in_force_once ds d : NoDup (map id_of ds) -> (in_force ds d <-> In d ds).
Proof.
  intros N. split; [intros (l1 & l2 & -> & _); apply in_or_app; cbn; auto|]. intros I. apply in_split in I. destruct I as (l1 & l2 & ->). exists l1, l2. repeat split.
  intros x X [T E]. rewrite map_app in N. cbn in N. apply NoDup_remove_2 in N. apply N, in_or_app. right. apply in_map_iff. exists x. split; [|exact X]. unfold id_of. congruence.
Qed.

Example options_main : main_options x_options ["crd"; "rbac"] ["dir"; "none"] ["paths"].
Proof.
  assert (F : forall d, in_force x_options d <-> In d x_options).
  { intros d. apply in_force_once. cbn. repeat constructor; cbn; intuition discriminate. }
  split.
  - intros d I. apply F in I. cbn in I. intuition (subst; reflexivity).
  - intros n. split.
    + intros I. exists (mkDef n DescribesPackage (mkPayload 7 (mkDefinition [] true))). split; [|reflexivity]. apply F.
      unfold x_options. apply (in_map (fun n => mkDef n DescribesPackage (mkPayload 7 (mkDefinition [] true)))). cbn in *. tauto.
    + intros (d & I & <-). apply F in I. cbn in I. intuition (subst; cbn; tauto).
  - intros n I. cbn in I. intuition (subst; reflexivity).
Qed.

Example fields_case : documents (Some (mkDHelp (mkDetail "s" "d") "c" None [("Max", mkDetail "the limit" "")]))
    (mkDef "m" DescribesField (mkPayload 0 (mkDefinition [("values", mkField "Values" (ASlice (APtr AStr)) true); ("max", mkField "Max" (AInt false) false)] true)))
    (mkMarkerDoc "m" "field" (mkDetail "s" "d") "c" None
       [mkFieldDoc "max" (mkHArgument "int" false None) (mkDetail "the limit" ""); mkFieldDoc "values" (mkHArgument "slice" true (Some (mkHArgument "string" true None))) (mkDetail "" "")]).
Proof. apply (for_definition_documents (fun l => l) (@rev _)); [intros l; apply Permutation_refl|intros l; apply Permutation_sym, Permutation_rev|]. cbn. repeat constructor; cbn; intuition discriminate. Qed.

Print Assumptions help_complete.
Print Assumptions help_stable.
Print Assumptions both_strict_weak.
Print Assumptions options_order.
Print Assumptions options_group.
Print Assumptions markers_category.
Print Assumptions printed_exact.
Print Assumptions markers_stable.
Print Assumptions options_stable.
Print Assumptions options_printed.
Print Assumptions types_total.
Print Assumptions types_shown_refuted.
Print Assumptions markers_stable_refuted.
Print Assumptions markers_printed_refuted.
