(** * The schemas that are generated, node by node *)
From Coq Require Import List String Ascii Bool ZArith QArith Permutation Sorting.Sorted Lia.
From Verif Require Import GoLib GoLibFacts MapFacts SchemaModel SchemaFacts RefModel ErrorsModel ValidSpec MarkModel MarkSpec MarkProofs MarkMeaning MarkOrder StructModel FlattenModel NeedModel FlattenSpec FlattenProofs StructSpec
  StructProofs EmitSpec EmitProofs.
Import ListNotations.
Open Scope string_scope.
Open Scope list_scope.
Open Scope nat_scope.

Definition gnode (s : schema) : Prop :=
  node_wf s /\ k_excl_max (s_kw s) = false /\ k_excl_min (s_kw s) = false /\ simple_node s /\ s_addl s <> Some (false, None) /\
  k_ref (s_kw s) <> Some "" /\ (k_ref (s_kw s) <> None -> children s = []).
Notation good := (all_nodes gnode).
Definition unexclusive (ms : marker_values) : Prop := forall b, ~ In (MExclMax true) (markers_of ms b) /\ ~ In (MExclMin true) (markers_of ms b).

Lemma unchanged_children ks a b : unchanged_but ks a b -> children a = children b.
Proof.
  unfold children. intros (_ & _ & _ & _ & _ & _ & _ & E1 & E2 & E3 & E4 & E5 & E6 & E7 & E8 & E9 & E10 & E11). rewrite E1, E2, E3, E4, E5, E6, E7, E8, E9, E10, E11. reflexivity.
Qed.
Lemma act_excl m s : m <> MExclMax true -> m <> MExclMin true -> k_excl_max (s_kw s) = false -> k_excl_min (s_kw s) = false ->
  k_excl_max (s_kw (fst (apply m s))) = false /\ k_excl_min (s_kw (fst (apply m s))) = false.
Proof.
  intros N1 N2 H1 H2. rewrite apply_act. destruct (ok m s); [|split; assumption]. cbn [fst].
  pose proof (act_agree m s KExclMax) as A. pose proof (act_agree m s KExclMin) as B.
  destruct m; cbn [keyword_of agree] in A, B; try (split; [rewrite <- A by discriminate; exact H1|rewrite <- B by discriminate; exact H2]).
  - destruct b; [congruence|]. split; [reflexivity|rewrite <- B by discriminate; exact H2].
  - destruct b; [congruence|]. split; [rewrite <- A by discriminate; exact H1|reflexivity].
Qed.
Lemma apply_all_excl l : forall s, ~ In (MExclMax true) (map snd l) -> ~ In (MExclMin true) (map snd l) -> k_excl_max (s_kw s) = false -> k_excl_min (s_kw s) = false ->
  k_excl_max (s_kw (fst (apply_all l s))) = false /\ k_excl_min (s_kw (fst (apply_all l s))) = false.
Proof.
  induction l as [|[n m] l IH]; intros s N1 N2 H1 H2; [split; assumption|]. cbn [apply_all]. destruct (act_excl m s) as [A B]; auto; [intros ->; apply N1; left; reflexivity|intros ->; apply N2; left; reflexivity|].
  destruct (apply m s) as [s1 e]. cbn [fst] in A, B. destruct (IH s1) as [C D]; auto; [intros X; apply N1; right; exact X|intros X; apply N2; right; exact X|]. destruct (apply_all l s1). split; assumption.
Qed.
Lemma apply_all_gnode l s : ~ In (MExclMax true) (map snd l) -> ~ In (MExclMin true) (map snd l) -> gnode s -> gnode (fst (apply_all l s)).
Proof.
  intros N1 N2 (W & X1 & X2 & (S1 & S2) & A & R & L). pose proof (apply_all_unchanged l s) as U. pose proof (unchanged_children _ _ _ U) as C. destruct (apply_all_excl l s N1 N2 X1 X2) as [Y1 Y2].
  destruct U as (_ & _ & _ & Er & _ & _ & _ & E1 & E2 & E3 & E4 & E5 & E6 & E7 & E8 & E9 & E10 & E11). unfold gnode, node_wf, simple_node in *. rewrite <- Er, <- C, <- E1, <- E6, <- E7, <- E8, <- E9, <- E11. tauto.
Qed.
Lemma apply_all_good l s : ~ In (MExclMax true) (map snd l) -> ~ In (MExclMin true) (map snd l) -> good s -> good (fst (apply_all l s)).
Proof.
  intros N1 N2 H. apply all_nodes_intro; [apply apply_all_gnode; auto; apply (all_nodes_root _ _ H)|]. intros c. rewrite <- (unchanged_children _ _ _ (apply_all_unchanged l s)). apply (all_nodes_child _ _ _ H).
Qed.
Lemma apply_items_good l s : ~ In (MExclMax true) (map snd l) -> ~ In (MExclMin true) (map snd l) -> good s -> good (fst (apply_items l s)).
Proof.
  intros N1 N2 H. rewrite items_all. destruct (s_items s) as [[[it|] more]|] eqn:E; try exact H. destruct (is_type s "array"); [|exact H]. cbn [fst].
  destruct (all_nodes_root _ _ H) as (W & X1 & X2 & (S1 & S2) & A & R & L). rewrite E in S1. subst more.
  assert (In it (children s)) as Hi by (unfold children; rewrite E; left; reflexivity).
  apply all_nodes_intro.
  - unfold gnode, node_wf, simple_node in *. cbn [s_kw s_items s_props s_patprops s_deps s_defs s_addl set_items]. repeat split; try tauto. intros K. specialize (L K). rewrite L in Hi. destruct Hi.
  - intros c Hc. assert (D : c = fst (apply_all l it) \/ In c (children s)).
    { unfold children in *. rewrite E. cbn [s_items s_allOf s_oneOf s_anyOf s_not s_props s_addl s_patprops s_deps s_addl_items s_defs set_items] in Hc. rewrite in_app_iff in Hc. destruct Hc as [[<-|[]]|Hc]; [left; reflexivity|]. right. right. exact Hc. }
    destruct D as [->|D]; [apply apply_all_good; auto|]; eapply all_nodes_child; eassumption.
Qed.

Section Good.
  Variable order : marker_values -> marker_values.
  Variable sorted : list (string * smarker) -> list (string * smarker).
  Hypothesis Ho : is_order order.
  Hypothesis Hs : sorts sorted.
  Lemma markers_good ms s : unexclusive ms -> good s -> good (fst (apply_markers order sorted ms s)).
  Proof.
    intros U H. rewrite apply_markers_eq. cbn [fst].
    assert (P : forall bb m, In m (map snd (sorted (MarkOrder.part bb (schema_markers order ms)))) -> In m (markers_of ms bb)).
    { intros bb m. rewrite <- part_markers. apply Permutation_in, Permutation_map. eapply Permutation_trans; [apply Hs|]. apply filter_perm, schema_markers_perm, Ho. }
    apply apply_items_good; [| |apply apply_all_good]; auto; intros X; apply P in X; apply (U _) in X; exact X.
  Qed.

  Variable imports : string -> bool.
  Variable allow_dangerous ig : bool.
  Variable pm : marker_values.
  Definition imported (r : string * string) : Prop := fst r = "" \/ imports (fst r) = true.
  Definition fine (x : res schema) : Prop := match x with Done s reqs _ => good s /\ Forall imported reqs | Panic => True end.
  Lemma fine_bind x f : fine x -> (forall s, good s -> fine (f s)) -> fine (bind x f).
  Proof. destruct x as [s r e|]; [|exact (fun _ _ => I)]. intros [A B] H. specialize (H s A). cbn. destruct (f s); [|exact I]. destruct H. split; [assumption|]. apply Forall_app. auto. Qed.
  Lemma good_leaf s : gnode s -> children s = [] -> good s.
  Proof. intros G C. apply all_nodes_intro; [exact G|]. rewrite C. intros c []. Qed.
  Lemma leaf_ok k : k_excl_max k = false -> k_excl_min k = false -> k_ref k <> Some "" -> good (with_kw schema0 k).
  Proof. intros A B C. apply good_leaf; [|reflexivity]. repeat split; auto; try constructor; discriminate. Qed.
  Lemma good0 : good schema0.
  Proof. apply (leaf_ok kw0); [reflexivity..|discriminate]. Qed.
  Lemma good_typed t f : good (typed t f).
  Proof. apply (leaf_ok (set_k_format (set_k_type kw0 t) f)); [reflexivity..|discriminate]. Qed.
  Lemma good_type t : good (set_type schema0 t).
  Proof. apply (leaf_ok (set_k_type kw0 t)); [reflexivity..|discriminate]. Qed.
  Lemma good_reft t f p n : good (set_ref (typed t f) (Some (type_ref_link p n))).
  Proof. apply (leaf_ok (set_k_ref (set_k_format (set_k_type kw0 t) f) (Some (type_ref_link p n)))); [reflexivity..|]. discriminate. Qed.
  Lemma good_ref p n : good (ref_to p n).
  Proof. apply (leaf_ok (set_k_ref kw0 (Some (type_ref_link p n)))); [reflexivity..|]. discriminate. Qed.
  Lemma good_desc s d : good s -> good (set_desc s d).
  Proof. intros H. apply all_nodes_intro; [exact (all_nodes_root _ _ H)|]. intros c. exact (all_nodes_child _ _ c H). Qed.
  Lemma good_array it : good it -> good (set_items (set_type schema0 "array") (Some (Some it, []))).
  Proof. intros H. apply all_nodes_intro; [repeat split; try constructor; try discriminate; intros []; reflexivity|]. intros c [<-|[]]. exact H. Qed.
  Lemma good_map it : good it -> good (set_addl (set_type schema0 "object") (Some (true, Some it))).
  Proof. intros H. apply all_nodes_intro; [repeat split; try constructor; try discriminate; intros []; reflexivity|]. intros c [<-|[]]. exact H. Qed.
  Lemma fine_ret s : good s -> fine (ret s).
  Proof. intros H. split; [exact H|constructor]. Qed.
  Lemma fine_fails s e : good s -> fine (fails s e).
  Proof. intros H. split; [exact H|constructor]. Qed.
  Lemma fine_request p n s : good s -> fine (bind (request imports p n) (fun _ => ret s)).
  Proof.
    intros H. unfold request. destruct (_ || _) eqn:E; [|exact I]. split; [exact H|]. constructor; [|constructor]. apply orb_true_iff in E as [E|E]; [left; apply String.eqb_eq, E|right; exact E].
  Qed.
  Lemma fine_markers ms s : unexclusive ms -> good s -> fine (with_markers order sorted ms s).
  Proof. intros U H. pose proof (markers_good ms s U H) as K. unfold with_markers. destruct (apply_markers _ _ _ _). split; [exact K|constructor]. Qed.
  Lemma fine_post x d ms : unexclusive ms -> fine x -> fine (bind x (fun s => with_markers order sorted ms (set_desc s d))).
  Proof. intros U H. apply fine_bind; [exact H|]. intros s G. apply fine_markers; [exact U|]. apply good_desc, G. Qed.
  Lemma fine_local n t : fine (local_named imports allow_dangerous n t).
  Proof.
    assert (Bs : forall k b, fine (bind (match builtin_to_type allow_dangerous k with Some r => ret r | None => fails ("", "") GBuiltin end) (fun '(typ, fmt) =>
            if negb (String.eqb b n) then bind (request imports "" n) (fun _ => ret (set_ref (typed typ fmt) (Some (type_ref_link "" n)))) else ret (typed typ fmt)))).
    { intros k b. destruct (builtin_to_type allow_dangerous k) as [[ty fm]|]; cbn [bind ret fails].
      - destruct (negb _); [|cbn; split; [apply good_typed|constructor]]. pose proof (fine_request "" n _ (good_reft ty fm "" n)) as R. destruct (bind (request imports "" n) _); [|exact I]. exact R.
      - destruct (negb _); [|cbn; split; [apply good_typed|constructor]]. pose proof (fine_request "" n _ (good_reft "" "" "" n)) as R. destruct (bind (request imports "" n) _); [|exact I]. exact R. }
    unfold local_named. destruct t as [|k b|o m u|o m u|]; try exact I; try apply Bs; try (apply fine_fails, good0).
    - cbn [obj_of]; destruct o; try exact I; apply fine_request, good_ref.
    - destruct u as [|k b|o' m' u'|o' m' u'|]; try exact I; try apply Bs.
      + pose proof (fine_request "" n _ (good_reft "" "" "" n)) as R. cbn [bind fails]. destruct (bind (request imports "" n) _); exact R || exact I.
      + cbn [obj_of]; destruct o'; try exact I; apply fine_request, good_ref.
      + cbn [obj_of]; destruct o'; try exact I; apply fine_request, good_ref.
  Qed.
  Lemma fine_named t : fine (named imports t).
  Proof. unfold named. destruct t as [|k b|o m u|o m u|]; try exact I; try (apply fine_fails, good0); cbn [obj_of]; destruct o; try exact I; apply fine_request, good_ref. Qed.
  Lemma fine_array x : fine x -> fine (bind x (fun items => ret (set_items (set_type schema0 "array") (Some (Some items, []))))).
  Proof. intros H. apply fine_bind; [exact H|]. intros s G. apply fine_ret, good_array, G. Qed.
  Lemma fine_map x : fine x -> fine (bind x (fun v => ret (set_addl (set_type schema0 "object") (Some (true, Some v))))).
  Proof. intros H. apply fine_bind; [exact H|]. intros s G. apply fine_ret, good_map, G. Qed.
  Lemma unexclusive_nil : unexclusive [].
  Proof. intros b. split; intros []. Qed.
  Notation TTS := (type_to_schema order sorted imports allow_dangerous).
  Lemma fine_type S1 S2 d ms e : unexclusive ms -> fine S1 -> fine S2 -> fine (TTS S1 S2 d ms e).
  Proof.
    assert (G : forall e, (forall S1 S2 d ms, unexclusive ms -> fine S1 -> fine S2 -> fine (TTS S1 S2 d ms e)) /\
       (forall sz, fine (if is_byte_type (type_of e) && negb sz then ret (typed "string" "byte")
                     else bind (TTS Panic Panic "" [] e) (fun items => ret (set_items (set_type schema0 "array") (Some (Some items, []))))))).
    { clear S1 S2 d ms e. fix IH 1. intros e.
      assert (A : forall S1 S2 d ms, unexclusive ms -> fine S1 -> fine S2 -> fine (TTS S1 S2 d ms e)).
      { intros S1 S2 d ms U H1 H2. destruct e as [n t|t|sz e|k v|e| |]; cbn [type_to_schema]; try (apply fine_fails, good0); apply fine_post; auto using fine_local, fine_named.
        - destruct (IH e) as [_ B]. apply B.
        - destruct (negb _); [apply fine_fails, good0|]. destruct (IH v) as [B _]. specialize (B Panic Panic "" [] unexclusive_nil I I).
          destruct v as [n t|t|sz e|k' v'|e| |]; try (apply fine_fails, good0); apply fine_map; auto using fine_local, fine_named.
          destruct (IH e) as [_ B']. apply B'.
        - destruct (IH e) as [B _]. apply B; assumption. }
      split; [exact A|]. intros sz. destruct (_ && _); [apply fine_ret, good_typed|]. apply fine_array. apply A; try exact I. exact unexclusive_nil. }
    destruct (G e) as [A _]. apply A.
  Qed.
  (* a struct's schema so far *)
  Definition open (s : schema) : Prop := good s /\ k_ref (s_kw s) = None.
  Definition fine_open (x : res schema) : Prop := match x with Done s reqs _ => open s /\ Forall imported reqs | Panic => True end.
  Lemma step_fine f s : unexclusive (fi_markers f) -> open s -> fine_open (field_step order sorted imports allow_dangerous ig pm f s).
  Proof.
    intros U S. unfold field_step. destruct (_ && _ && _); [split; [exact S|constructor]|]. destruct (fi_json f) as [tag|]; [|split; [exact S|constructor]].
    destruct (_ && _); [split; [exact S|constructor]|]. cbn zeta.
    match goal with |- context[k_required (s_kw s) ++ [?n]] => set (nm := n) end.
    assert (S0 : fine (if has_marker (fi_markers f) "kubebuilder:validation:Schemaless" then ret schema0 else TTS Panic Panic "" [] (fi_type f))).
    { destruct (has_marker _ _); [apply fine_ret, good0|]. apply fine_type; try exact I. exact unexclusive_nil. }
    destruct (if has_marker (fi_markers f) "kubebuilder:validation:Schemaless" then ret schema0 else TTS Panic Panic "" [] (fi_type f)) as [b r1 e1|]; [|exact I].
    destruct S0 as [Gb R1]. cbn [bind]. pose proof (fine_markers _ _ U (good_desc b (fi_doc f) Gb)) as M. destruct (with_markers order sorted (fi_markers f) (set_desc b (fi_doc f))) as [p r2 e2|] eqn:Ew; [|exact I]. destruct M as [Gp R2]. cbn [bind ret].
    match goal with |- context[set_allOf ?x _] => set (q := x) end.
    assert (Q : open q).
    { assert (Qa : open (set_required s (k_required (s_kw s) ++ [nm]))).
      { destruct S as [S R]. split; [|exact R]. apply all_nodes_intro; [exact (all_nodes_root _ _ S)|]. intros c. exact (all_nodes_child _ _ c S). }
      unfold q. repeat match goal with |- context[if ?x then _ else _] => destruct x end; assumption. }
    clearbody q. destruct Q as [Q R]. destruct (all_nodes_root _ _ Q) as (W & X1 & X2 & (T1 & T2) & A & _ & _).
    split; [|rewrite !Forall_app; auto]. destruct (_ || _).
    - split; [|exact R]. apply all_nodes_intro.
      + unfold gnode, node_wf, simple_node in *. cbn [s_kw s_items s_props s_patprops s_deps s_defs s_addl set_allOf]. repeat split; try tauto; congruence.
      + intros c C. unfold children in C. cbn [s_items s_allOf s_oneOf s_anyOf s_not s_props s_addl s_patprops s_deps s_addl_items s_defs set_allOf] in C.
        assert (D : c = p \/ In c (children q)). { unfold children. rewrite !in_app_iff in *. cbn [In] in C. intuition congruence. }
        destruct D as [->|D]; [exact Gp|exact (all_nodes_child _ _ _ Q D)].
    - split; [|exact R]. apply all_nodes_intro.
      + unfold gnode, node_wf, simple_node in *. cbn [s_kw s_items s_props s_patprops s_deps s_defs s_addl set_props]. repeat split; try tauto; try congruence. apply mset_nodup'. tauto.
      + intros c C. unfold children in C. cbn [s_items s_allOf s_oneOf s_anyOf s_not s_props s_addl s_patprops s_deps s_addl_items s_defs set_props] in C.
        assert (D : c = p \/ In c (children q)).
        { unfold children. pose proof (mset_in imports (s_props q) nm p c) as M. rewrite !in_app_iff in *. tauto. }
        destruct D as [->|D]; [exact Gp|exact (all_nodes_child _ _ _ Q D)].
  Qed.
  Lemma fields_fine fs : Forall (fun f => unexclusive (fi_markers f)) fs -> forall s, open s -> fine_open (fields_to_schema order sorted imports allow_dangerous ig pm fs s).
  Proof.
    induction 1 as [|f fs U _ IH]; intros s S; cbn [fields_to_schema]; [split; [exact S|constructor]|].
    pose proof (step_fine f s U S) as H. destruct (field_step _ _ _ _ _ _ f s) as [s1 r1 e1|]; [|exact I]. destruct H as [H R]. cbn [bind]. specialize (IH s1 H).
    destruct (fields_to_schema _ _ _ _ _ _ fs s1); [|exact I]. destruct IH. split; [assumption|]. apply Forall_app. auto.
  Qed.
  Lemma spec_fine ti : unexclusive (ti_markers ti) -> Forall (fun f => unexclusive (fi_markers f)) (ti_fields ti) -> fine (spec_to_schema order sorted imports allow_dangerous ig pm ti).
  Proof.
    intros U F. unfold spec_to_schema. apply fine_type; [exact U| |apply fine_fails, good_type].
    pose proof (fields_fine _ F (set_type schema0 "object") (conj (good_type _) eq_refl)) as H. destruct (fields_to_schema _ _ _ _ _ _ _ _); [|exact I]. destruct H as [[H _] R]. split; assumption.
  Qed.
  Lemma info_fine ti : unexclusive (ti_markers ti) -> Forall (fun f => unexclusive (fi_markers f)) (ti_fields ti) -> fine (info_to_schema order sorted imports allow_dangerous ig pm ti).
  Proof.
    intros U F. pose proof (spec_fine ti U F) as S. unfold info_to_schema. destruct (ti_json ti); [|destruct (ti_text ti); [|exact S]].
    - apply fine_bind; [apply fine_markers; [exact U|exact good0]|]. intros s G. destruct (negb _); [apply fine_ret, G|exact S].
    - apply fine_bind; [apply fine_markers; [exact U|apply good_type]|]. intros s G. destruct (negb _); [apply fine_fails, G|apply fine_ret, G].
  Qed.
End Good.
