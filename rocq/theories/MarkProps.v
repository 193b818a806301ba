(** * C12, C13, C35, C36: schema markers.
    Each theorem is closed by a lemma of MarkProofs, MarkMeaning or MarkOrder; [Print Assumptions] follows it. *)
From Coq Require Import List String ZArith QArith Bool Permutation Sorting.Sorted Lia.
From Verif Require Import GoLib GoLibFacts SchemaModel ValidSpec MarkModel MarkSpec MarkProofs MarkMeaning MarkOrder.
Import ListNotations.
Open Scope nat_scope.
Open Scope string_scope.
Open Scope list_scope.

(** ** C12 *)
(** A marker is accepted exactly on the schemas it is meant for. *)
Theorem marker_accepted m s : snd (apply m s) = false <-> usable m s.
Proof. rewrite <- ok_usable. unfold ok. apply iff_sym, negb_true_iff. Qed.
Print Assumptions marker_accepted.
(** A rejected marker leaves the schema as it was. *)
Theorem marker_rejected m s : ~ usable m s -> apply m s = (s, true).
Proof. intros N. rewrite apply_act. destruct (ok m s) eqn:E; [|reflexivity]. exfalso. apply N, ok_usable, E. Qed.
Print Assumptions marker_rejected.
(** An accepted one is stored under its keyword and changes nothing else. *)
Theorem marker_stored m s : usable m s -> carries m (s_kw (fst (apply m s))) /\ unchanged_but [keyword_of m] s (fst (apply m s)).
Proof.
  intros U. apply ok_usable in U. rewrite apply_act, U. split; [apply act_carries, U|apply act_unchanged].
Qed.
Print Assumptions marker_stored.
(** Earlier rules and keys are kept, in order. *)
Theorem marker_appended r key s :
  k_x_validations (s_kw (fst (apply (MXValidation r) s))) = k_x_validations (s_kw s) ++ (if snd (apply (MXValidation r) s) then [] else [r]) /\
  k_x_list_map_keys (s_kw (fst (apply (MListMapKey key) s))) = k_x_list_map_keys (s_kw s) ++ (if snd (apply (MListMapKey key) s) then [] else [key]).
Proof.
  rewrite !apply_act. destruct (ok (MXValidation r) s), (ok (MListMapKey key) s); cbn; rewrite ?app_nil_r; auto.
Qed.
Print Assumptions marker_appended.
(** An empty object for the default of an array is an empty array. *)
Theorem marker_default v s : k_default (s_kw (fst (apply (MDefault v) s))) = Some v \/
  (k_type (s_kw s) = "array" /\ v = JObj [] /\ k_default (s_kw (fst (apply (MDefault v) s))) = Some (JArr [])).
Proof.
  destruct (marker_stored (MDefault v) s I) as [[H|(H1 & H2 & H3)] U]; [left; exact H|right]. split; [|auto].
  destruct U as (U & _). rewrite <- H3. apply (U KType). intros [C|[]]; discriminate.
Qed.
Print Assumptions marker_default.

Definition case_int : schema := set_type schema0 "integer".
Example case_usable : usable (MMaximum 3) case_int /\ ~ usable (MMaximum (1 # 2)) case_int /\ usable (MMaximum (1 # 2)) (set_type schema0 "number") /\
  ~ usable (MMaxLength 3) case_int /\ usable (MMaxLength 3) (set_x_int_or_string schema0 true) /\ ~ usable (MListMapKey "k") (set_type schema0 "array").
Proof.
  rewrite <- !ok_usable. repeat split; try reflexivity; intros H; discriminate H.
Qed.

(** ** C35 *)
(** Where a marker is accepted and its keyword was not set, the values admitted are those admitted before that satisfy it. *)
Theorem marker_meaning O m s v : usable m s -> silent m (s_kw s) -> m <> MNullable ->
  (valid O (fst (apply m s)) v = true <-> valid O s v = true /\ admits O m (s_kw s) v).
Proof. intros U. pose proof U as U'. apply ok_usable in U'. rewrite apply_act, U'. apply meaning, U. Qed.
Print Assumptions marker_meaning.
(** nullable admits null whatever the type, and changes nothing for other values. *)
Theorem marker_meaning_nullable O s v : let s' := fst (apply MNullable s) in
  (v <> JNull -> valid O s' v = valid O s v) /\ (valid O s v = true -> valid O s' v = true) /\ (valid O s' JNull = true <-> valid O (set_type s "") JNull = true).
Proof. exact (meaning_nullable O s v). Qed.
Print Assumptions marker_meaning_nullable.
Example case_meaning O : valid O (fst (apply (MMaximum 3) case_int)) (JNum 3) = true /\ valid O (fst (apply (MMaximum 3) case_int)) (JNum 4) = false /\
  valid O (fst (apply (MEnum []) case_int)) (JNum 4) = true /\ silent (MMaximum 3) (s_kw case_int).
Proof. repeat split. Qed.
(** Where the keyword was set, the later marker replaces the earlier one, which then restricts nothing. *)
Theorem marker_override_refuted O : exists s v, usable (MMaximum 5) s /\ valid O s v = false /\ valid O (fst (apply (MMaximum 5) s)) v = true.
Proof. exists (fst (apply (MMaximum 3) case_int)), (JNum 4). split; [apply ok_usable; reflexivity|split; reflexivity]. Qed.
Print Assumptions marker_override_refuted.

(** ** C13 *)
(** The schema, up to the order of rules and keys, and the errors, up to their order, depend neither on the order of the
    marker map nor on how sort.Slice orders markers of equal priority. *)
Theorem marker_order o1 o2 f1 f2 set s : is_order o1 -> is_order o2 -> sorts f1 -> sorts f2 -> order_free set ->
  similar (fst (apply_markers o1 f1 set s)) (fst (apply_markers o2 f2 set s)) /\ Permutation (snd (apply_markers o1 f1 set s)) (snd (apply_markers o2 f2 set s)).
Proof. exact (order_similar o1 o2 f1 f2 set s). Qed.
Print Assumptions marker_order.
(** With at most one rule and one key it is the same schema. *)
Theorem marker_order_exact o1 o2 f1 f2 set s : is_order o1 -> is_order o2 -> sorts f1 -> sorts f2 -> order_exact set ->
  fst (apply_markers o1 f1 set s) = fst (apply_markers o2 f2 set s) /\ Permutation (snd (apply_markers o1 f1 set s)) (snd (apply_markers o2 f2 set s)).
Proof. exact (order_equal o1 o2 f1 f2 set s). Qed.
Print Assumptions marker_order_exact.

(** Stable sorting is one possibility for sort.Slice. *)
Definition stable : list (string * smarker) -> list (string * smarker) := sort_by (fun a b => Nat.ltb (priority (snd a)) (priority (snd b))).
Lemma stable_sorts : sorts stable.
Proof.
  intros l. split; [apply sort_by_perm|]. unfold stable.
  assert (H := sort_by_sorted (string * smarker) (fun a b => Nat.ltb (priority (snd a)) (priority (snd b)))).
  assert (E : forall q, StronglySorted (fun a b : string * smarker => Nat.ltb (priority (snd b)) (priority (snd a)) = false) q -> StronglySorted (fun a b => priority (snd a) <= priority (snd b)) q).
  { induction 1 as [|x q S IH F]; constructor; [exact IH|]. eapply Forall_impl; [|exact F]. intros b Hb. apply Nat.ltb_ge in Hb. exact Hb. }
  apply E. apply H.
  - intros a b c. rewrite !Nat.ltb_lt. lia.
  - intros a. apply Nat.ltb_irrefl.
  - intros a b c. rewrite !Nat.ltb_ge. lia.
Qed.
Lemma id_order {A} : is_order (fun l : list A => l). Proof. intros l. apply Permutation_refl. Qed.
Lemma rev_order {A} : is_order (@rev A). Proof. intros l. apply Permutation_sym, Permutation_rev. Qed.

Definition case_set : marker_values :=
  [("kubebuilder:default", [VSchema (MDefault (JObj []))]); ("kubebuilder:validation:Type", [VSchema (MType "array")]); ("optional", [VOther]); ("default", [VSchema (MKubeDefault (JArr [JNum 1]))]);
   ("kubebuilder:validation:MaxItems", [VSchema (MMaxItems 4)]); ("kubebuilder:validation:MaxLength", [VSchema (MMaxLength 4)]); ("kubebuilder:validation:items:MinLength", [VSchema (MMinLength 1)])].
Lemma pairwise_cons {A} (R : A -> A -> Prop) x l : (forall y, In y l -> R x y) -> pairwise R l -> pairwise R (x :: l).
Proof.
  intros H P [|x0 a] b c u v E; cbn in E; injection E as -> E; [|apply (P a b c u v E)]. apply H. rewrite E. apply in_elt.
Qed.
Lemma pairwise_nil {A} (R : A -> A -> Prop) : pairwise R []. Proof. intros [|? ?] b c u v E; discriminate. Qed.
Example case_order : order_exact case_set /\ order_free case_set /\
  apply_markers (@rev _) stable case_set (set_items schema0 (Some (Some (set_type schema0 "string"), []))) =
  apply_markers (fun x => x) stable case_set (set_items schema0 (Some (Some (set_type schema0 "string"), []))) /\
  k_default (s_kw (fst (apply_markers (@rev _) stable case_set schema0))) = Some (JArr []) /\ snd (apply_markers (@rev _) stable case_set schema0) <> [].
Proof.
  assert (E : order_exact case_set).
  { intros []; cbn; repeat (apply pairwise_cons; [cbn; intros y Hy; decompose [or] Hy; try contradiction; subst; (split; [|cbn; contradiction]);
      first [left; discriminate|right; right; right; repeat split; cbn; intuition discriminate]|]); apply pairwise_nil. }
  split; [exact E|]. split; [intros b x y z m m' H; apply (E b x y z m m' H)|]. split; [|split]; vm_compute; congruence.
Qed.

(** The list type is applied at the priority of the type: whether it sees an array depends on the order. *)
Theorem marker_type_list_type_refuted : exists set s, NoDup (map fst set) /\
  snd (apply_markers (fun x => x) stable set s) = [] /\ snd (apply_markers (@rev _) stable set s) = ["listType"] /\
  fst (apply_markers (fun x => x) stable set s) <> fst (apply_markers (@rev _) stable set s).
Proof.
  exists [("kubebuilder:validation:Type", [VSchema (MType "array")]); ("listType", [VSchema (MListType "atomic")])], schema0.
  split; [repeat constructor; cbn; intuition discriminate|]. split; [reflexivity|]. split; [reflexivity|discriminate].
Qed.
Print Assumptions marker_type_list_type_refuted.
(** mapType and structType set the same keyword. *)
Theorem marker_map_struct_type_refuted : exists set s, NoDup (map fst set) /\
  snd (apply_markers (fun x => x) stable set s) = [] /\ snd (apply_markers (@rev _) stable set s) = [] /\
  fst (apply_markers (fun x => x) stable set s) <> fst (apply_markers (@rev _) stable set s).
Proof.
  exists [("mapType", [VSchema (MMapType "granular")]); ("structType", [VSchema (MStructType "atomic")])], (set_type schema0 "object").
  split; [repeat constructor; cbn; intuition discriminate|]. split; [reflexivity|]. split; [reflexivity|discriminate].
Qed.
Print Assumptions marker_map_struct_type_refuted.
(** Rules of one type keep their order only if the sort keeps it. *)
Definition unstable (l : list (string * smarker)) : list (string * smarker) := stable (rev l).
Theorem marker_rule_order_refuted : sorts unstable /\ exists set s, NoDup (map fst set) /\
  fst (apply_markers (fun x => x) stable set s) <> fst (apply_markers (fun x => x) unstable set s).
Proof.
  split.
  - intros l. split; [|apply stable_sorts]. eapply Permutation_trans; [apply stable_sorts|apply Permutation_sym, Permutation_rev].
  - exists [("kubebuilder:validation:XValidation", [VSchema (MXValidation (mkVrule "a" "" "" "" "" None)); VSchema (MXValidation (mkVrule "b" "" "" "" "" None))])], schema0.
    split; [repeat constructor; intros []|discriminate].
Qed.
Print Assumptions marker_rule_order_refuted.

(** ** C36 *)
(** Every schema marker is reported or is in the schema (markers for items: in the items' schema), whatever the order. *)
Theorem marker_not_lost o f set s name vs m : is_order o -> sorts f -> one_each set -> In (name, vs) set -> In (VSchema m) vs ->
  let r := apply_markers o f set s in
  In name (snd r) \/
  (if has_prefix items_prefix name then exists it more, s_items (fst r) = Some (Some it, more) /\ carries m (s_kw it) else carries m (s_kw (fst r))).
Proof. exact (no_marker_lost o f set s name vs m). Qed.
Print Assumptions marker_not_lost.
(** And nothing else changes: no other keyword, no subschema but the items, and these only by the markers for items. *)
Theorem markers_only o f set s : is_order o -> sorts f ->
  let s' := fst (apply_markers o f set s) in
  unchanged_but (map keyword_of (markers_of set false)) s (set_items s' (s_items s)) /\
  match s_items s, s_items s' with
  | Some (Some a, l), Some (Some b, l') => l = l' /\ unchanged_but (map keyword_of (markers_of set true)) a b
  | x, y => x = y
  end.
Proof. exact (markers_frame o f set s). Qed.
Print Assumptions markers_only.
Example case_one_each : one_each [("kubebuilder:validation:Type", [VSchema (MType "array")]); ("listType", [VSchema (MListType "map")]); ("listMapKey", [VSchema (MListMapKey "a"); VSchema (MListMapKey "b")])].
Proof.
  intros []; cbn; repeat (apply pairwise_cons; [cbn; intros y Hy; decompose [or] Hy; try contradiction; subst; first [left; discriminate|right; exact I]|]); apply pairwise_nil.
Qed.
(** Two markers for one keyword: the one applied first is lost without an error. *)
Theorem marker_stomped_refuted : exists set s, NoDup (map fst set) /\ snd (apply_markers (fun x => x) stable set s) = [] /\
  ~ carries (MKubeDefault (JNum 1)) (s_kw (fst (apply_markers (fun x => x) stable set s))).
Proof.
  exists [("kubebuilder:default", [VSchema (MDefault (JNum 2))]); ("default", [VSchema (MKubeDefault (JNum 1))])], schema0.
  split; [repeat constructor; cbn; intuition discriminate|]. split; [reflexivity|]. intros [C|C]; discriminate.
Qed.
Print Assumptions marker_stomped_refuted.
