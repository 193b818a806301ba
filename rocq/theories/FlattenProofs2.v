(** * Flattening allOf and validity: one merge. *)

From Coq Require Import List String ZArith QArith Bool Lia Permutation.
From Verif Require Import GoLib GoLibFacts SchemaModel SchemaFacts WalkModel WalkSpec WalkProofs FlattenModel ValidSpec FlattenSpec FlattenProofs.
Import ListNotations.
Open Scope string_scope.
Open Scope list_scope.
Open Scope nat_scope.

(** ** Fields with the default conflict resolution *)
Lemma ptr_conj {A} (f : option A -> bool) d s : f None = true ->
  f (keep_ptr d s) && f (drem_ptr d s) && f (srem_ptr d s) = f d && f s.
Proof. intros H. destruct d, s; unfold keep_ptr, drem_ptr, srem_ptr; simpl; rewrite ?H, ?andb_true_r; reflexivity. Qed.
Lemma slice_conj {A} (f : list A -> bool) d s : f [] = true ->
  f (keep_slice d s) && f (drem_slice d s) && f (srem_slice d s) = f d && f s.
Proof. intros H. destruct d, s; unfold keep_slice, drem_slice, srem_slice; simpl; rewrite ?H, ?andb_true_r; reflexivity. Qed.
Lemma str_conj (f : string -> bool) d s : f "" = true ->
  f (keep_str d s) && f (drem_str d s) && f (srem_str d s) = f d && f s.
Proof.
  intros H. unfold keep_str, drem_str, srem_str, clash_str.
  destruct (String.eqb s "") eqn:Es; [apply String.eqb_eq in Es; subst s; simpl; rewrite H; destruct (String.eqb d "") eqn:Ed;
    [apply String.eqb_eq in Ed; subst d; rewrite ?H|]; rewrite ?andb_true_r; reflexivity|].
  destruct (String.eqb d "") eqn:Ed; [apply String.eqb_eq in Ed; subst d; simpl; rewrite H; rewrite ?andb_true_r; reflexivity|].
  destruct (String.eqb s d) eqn:E; simpl; rewrite H; [apply String.eqb_eq in E; subst d; rewrite ?andb_true_r; destruct (f s); reflexivity|].
  rewrite ?andb_true_l. reflexivity.
Qed.

Lemma forallb_perm' {A} (f : A -> bool) l l' : (forall x, In x l <-> In x l') -> forallb f l = forallb f l'.
Proof.
  intros H. destruct (forallb f l') eqn:E.
  - apply forallb_forall. intros x Hx. rewrite forallb_forall in E. apply E, H, Hx.
  - destruct (forallb f l) eqn:E'; [|reflexivity]. rewrite <- E. symmetry. apply forallb_forall. intros x Hx.
    rewrite forallb_forall in E'. apply E', H, Hx.
Qed.

Lemma forallb_ext_eq {A} (f g : A -> bool) l : (forall x, In x l -> f x = g x) -> forallb f l = forallb g l.
Proof. induction l as [|x l IH]; simpl; intros H; [reflexivity|]. rewrite H, IH by auto. reflexivity. Qed.

Section Merge.
  Variable O : oracles.
  Notation valid := (valid O). Notation kw_ok := (kw_ok O).

  Lemma kw_ok_dedup k v : kw_ok (dedup_required k) v = kw_ok k v.
  Proof.
    unfold ValidSpec.kw_ok, kw_checks. simpl. repeat (apply f_equal2; [reflexivity|]). apply f_equal2; [|reflexivity].
    destruct v; simpl; try reflexivity. apply forallb_perm'. intros x. rewrite sort_strings_in, dedup_in. reflexivity.
  Qed.

  (** Keywords: the merged node together with the two remainders checks what the two nodes check. *)
  Definition kw_merged (d s : kw) (v : json) : bool := kw_ok (kw_keep d s) v && kw_ok (kw_drem d s) v && kw_ok (kw_srem d s) v.

  Lemma forallb_in {A} (f : A -> bool) l : forallb f l = true <-> (forall x, In x l -> f x = true).
  Proof. apply forallb_forall. Qed.

  Definition other_checks := tl (kw_checks O).

  Lemma other_checks_eq d s v : k_excl_max d = false -> k_excl_min d = false -> k_excl_max s = false -> k_excl_min s = false ->
    forall c, In c other_checks -> c (kw_keep d s) v && c (kw_drem d s) v && c (kw_srem d s) v = c d v && c s v.
  Proof.
    intros E1 E2 E3 E4 c Hc. simpl in Hc.
    destruct Hc as [<-|[<-|[<-|[<-|[<-|[<-|[<-|[<-|[<-|[<-|[<-|[<-|[<-|[<-|[<-|[<-|[<-|[<-|[]]]]]]]]]]]]]]]]]]]; cbn;
      rewrite ?E1, ?E2, ?E3, ?E4; cbn.
    - exact (ptr_conj (fun o => opt_ok o (fun r => String.eqb r "" || o_ref O r v)) _ _ eq_refl).
    - exact (str_conj (fun x => String.eqb x "" || o_format O x v) _ _ eq_refl).
    - exact (ptr_conj (fun o => opt_ok o (fun m => on_num v (fun q => Qle_bool q m))) _ _ eq_refl).
    - exact (ptr_conj (fun o => opt_ok o (fun m => on_num v (fun q => Qle_bool m q))) _ _ eq_refl).
    - exact (ptr_conj (fun o => opt_ok o (fun n => on_str v (fun s => Z.leb (o_strlen O s) n))) _ _ eq_refl).
    - exact (ptr_conj (fun o => opt_ok o (fun n => on_str v (fun s => Z.leb n (o_strlen O s)))) _ _ eq_refl).
    - exact (str_conj (fun x => String.eqb x "" || on_str v (o_pattern O x)) _ _ eq_refl).
    - exact (ptr_conj (fun o => opt_ok o (fun n => on_arr v (fun l => Z.leb (zlen l) n))) _ _ eq_refl).
    - exact (ptr_conj (fun o => opt_ok o (fun n => on_arr v (fun l => Z.leb n (zlen l)))) _ _ eq_refl).
    - rewrite !andb_true_r. destruct (k_unique_items d), (k_unique_items s); simpl; rewrite ?andb_true_r; try reflexivity.
      destruct (on_arr v _); reflexivity.
    - exact (ptr_conj (fun o => opt_ok o (fun m => on_num v (fun q => o_multiple O q m))) _ _ eq_refl).
    - exact (slice_conj (fun l => match l with [] => true | j :: l0 => o_jeq O v j || existsb (o_jeq O v) l0 end) _ _ eq_refl).
    - exact (ptr_conj (fun o => opt_ok o (fun n => on_obj v (fun l => Z.leb (zlen l) n))) _ _ eq_refl).
    - exact (ptr_conj (fun o => opt_ok o (fun n => on_obj v (fun l => Z.leb n (zlen l)))) _ _ eq_refl).
    - destruct v; simpl; try reflexivity. rewrite forallb_app, !andb_true_r. reflexivity.
    - rewrite !andb_true_r. destruct (k_x_embedded d), (k_x_embedded s); simpl; rewrite ?andb_true_r; try reflexivity.
      destruct (o_embedded O v); reflexivity.
    - rewrite !andb_true_r. destruct (k_x_int_or_string d), (k_x_int_or_string s); simpl; rewrite ?andb_true_r; try reflexivity.
      destruct (match v with JNull => true | _ => _ end); reflexivity.
    - rewrite forallb_app, !andb_true_r. apply andb_comm.
  Qed.

  Lemma forallb_conj3 {A} (f g h d s : A -> bool) l :
    (forall c, In c l -> f c && g c && h c = d c && s c) -> forallb f l && forallb g l && forallb h l = forallb d l && forallb s l.
  Proof.
    induction l as [|c l IH]; simpl; intros H; [reflexivity|].
    transitivity ((f c && g c && h c) && (forallb f l && forallb g l && forallb h l)).
    { destruct (f c), (g c), (h c), (forallb f l), (forallb g l), (forallb h l); reflexivity. }
    rewrite IH, H by auto. destruct (d c), (s c), (forallb d l), (forallb s l); reflexivity.
  Qed.

  Lemma kw_ok_split k v : kw_ok k v = type_ok (k_type k) (k_nullable k) v && forallb (fun c => c k v) other_checks.
  Proof. reflexivity. Qed.

  Lemma kw_merged_split d s v : k_excl_max d = false -> k_excl_min d = false -> k_excl_max s = false -> k_excl_min s = false ->
    kw_merged d s v = type_ok (keep_type (k_type d) (k_type s)) (k_nullable d || k_nullable s) v &&
                      (forallb (fun c => c d v) other_checks && forallb (fun c => c s v) other_checks).
  Proof.
    intros E1 E2 E3 E4. unfold kw_merged. rewrite !kw_ok_split.
    rewrite <- (forallb_conj3 (fun c => c (kw_keep d s) v) (fun c => c (kw_drem d s) v) (fun c => c (kw_srem d s) v) _ _ _
                  (other_checks_eq d s v E1 E2 E3 E4)).
    cbn [k_type k_nullable kw_keep kw_drem kw_srem type_ok String.eqb orb andb]. 
    rewrite !andb_assoc. reflexivity.
  Qed.

  Lemma kw_merge_le d s v : k_excl_max d = false -> k_excl_min d = false -> k_excl_max s = false -> k_excl_min s = false ->
    kw_ok d v = true -> kw_ok s v = true -> kw_merged d s v = true.
  Proof.
    intros E1 E2 E3 E4 Hd Hs. rewrite kw_merged_split by assumption. rewrite kw_ok_split in Hd, Hs.
    apply andb_true_iff in Hd as [Td Hd]. apply andb_true_iff in Hs as [Ts Hs]. rewrite Hd, Hs, !andb_true_r.
    revert Td Ts. unfold keep_type, type_ok. destruct (String.eqb (k_type d) "") eqn:E; simpl.
    - intros _. destruct (String.eqb (k_type s) ""); [reflexivity|]. simpl. destruct v; auto; try (intros ->; apply orb_true_r).
    - rewrite E. simpl. intros H _. destruct v; auto; try (rewrite H; reflexivity).
  Qed.

  Lemma kw_merge_ge d s v : k_excl_max d = false -> k_excl_min d = false -> k_excl_max s = false -> k_excl_min s = false ->
    type_error (k_type d) (k_type s) = [] -> v <> JNull -> kw_merged d s v = true -> kw_ok d v = true /\ kw_ok s v = true.
  Proof.
    intros E1 E2 E3 E4 HT Hv. rewrite kw_merged_split by assumption. rewrite !kw_ok_split, !andb_true_iff.
    intros [T [H1 H2]]. rewrite H1, H2. clear H1 H2. revert T HT. unfold keep_type, type_error, clash_str.
    destruct (String.eqb (k_type d) "") eqn:Ed.
    - intros T _. apply String.eqb_eq in Ed. rewrite Ed. simpl. repeat split; auto. revert T. unfold type_ok.
      destruct (String.eqb (k_type s) ""); [reflexivity|]. simpl. destruct v; auto; congruence.
    - intros T HT. assert (Hn : type_ok (k_type d) (k_nullable d) v = true).
      { revert T. unfold type_ok. rewrite Ed. simpl. destruct v; auto; congruence. }
      repeat split; auto. destruct (String.eqb (k_type s) "") eqn:Es; [unfold type_ok; rewrite Es; reflexivity|].
      simpl in HT. destruct (String.eqb (k_type s) (k_type d)) eqn:E; simpl in HT; [|discriminate].
      apply String.eqb_eq in E. rewrite E. revert T. unfold type_ok. rewrite Ed. simpl. destruct v; auto; congruence.
  Qed.

  (** ** Nodes *)
  Definition arr_ok (it : option (option schema * list schema)) (v : json) : bool :=
    on_arr v (fun arr => match it with Some (Some x, _) => forallb (valid x) arr | _ => true end).
  Definition one_ok (l : list schema) (v : json) : bool :=
    match l with [] => true | _ => Nat.eqb (List.length (filter (fun c => valid c v) l)) 1 end.
  Definition any_ok (l : list schema) (v : json) : bool := match l with [] => true | _ => existsb (fun c => valid c v) l end.
  Definition not_ok (o : option schema) (v : json) : bool := match o with Some c => negb (valid c v) | None => true end.
  Definition props_ok (P : list (string * schema)) (v : json) : bool :=
    on_obj v (fun obj => forallb (fun p => match mget String.eqb obj (fst p) with Some x => valid (snd p) x | None => true end) P).
  Definition addl_ok (P : list (string * schema)) (A : option (bool * option schema)) (v : json) : bool :=
    on_obj v (fun obj => match A with
              | None => true
              | Some (b, o) => forallb (fun kv => mem_str (fst kv) (map fst P) || match o with Some x => valid x (snd kv) | None => b end) obj
              end).
  Definition deps_ok (D : list (string * (option schema * list string))) (v : json) : bool :=
    on_obj v (fun obj => forallb (fun p => negb (has_key obj (fst p))
                        || (match fst (snd p) with Some x => valid x v | None => true end && forallb (has_key obj) (snd (snd p)))) D).
  Definition no_tuple (it : option (option schema * list schema)) : Prop := match it with Some (_, l) => l = [] | None => True end.

  Definition node_ok (s : schema) (v : json) : bool :=
    kw_ok (s_kw s) v && arr_ok (s_items s) v && forallb (fun c => valid c v) (s_allOf s) && one_ok (s_oneOf s) v && any_ok (s_anyOf s) v
    && not_ok (s_not s) v && props_ok (s_props s) v && addl_ok (s_props s) (s_addl s) v && deps_ok (s_deps s) v.

  Lemma valid_plain s v : no_tuple (s_items s) -> s_patprops s = [] -> valid s v = node_ok s v.
  Proof.
    destruct s as [k it ao oo an nt pr ad pp dp ai df]. cbn [s_items s_patprops]. intros Hi ->.
    unfold node_ok. cbn [ValidSpec.valid s_kw s_items s_allOf s_oneOf s_anyOf s_not s_props s_addl s_deps].
    fold (one_ok oo v) (any_ok an v) (not_ok nt v).
    assert (Ei : on_arr v (fun arr =>
           match it with
           | None => true
           | Some (o, []) => match o with Some x => forallb (valid x) arr | None => true end
           | Some (_, tuple) =>
               (fix go (l : list schema) (arr : list json) {struct l} : bool :=
                  match l, arr with
                  | x :: l', a :: arr' => valid x a && go l' arr'
                  | [], rest => match ai with
                                | Some (_, Some x) => forallb (valid x) rest
                                | Some (b, None) => b || match rest with [] => true | _ => false end
                                | None => true
                                end
                  | _, [] => true
                  end) tuple arr
           end) = arr_ok it v).
    { unfold arr_ok. destruct v; try reflexivity. simpl. destruct it as [[o l']|]; [|reflexivity]. simpl in Hi. subst l'. destruct o; reflexivity. }
    rewrite Ei. clear Ei. unfold props_ok, addl_ok, deps_ok. destruct v; simpl; rewrite ?andb_true_r; try reflexivity.
    rewrite !andb_assoc. rewrite ?andb_true_r. f_equal. f_equal. destruct ad as [[b o]|]; [|reflexivity].
    apply forallb_ext_eq. intros kv _. rewrite orb_false_r. reflexivity.
  Qed.

  Lemma valid_schema0 v : valid schema0 v = true.
  Proof. rewrite valid_plain by (simpl; auto). destruct v; reflexivity. Qed.

  Lemma no_clash d s : kw_clash (s_kw d) (s_kw s) || struct_clash d s = false -> dst_remainder d s = schema0 /\ src_remainder d s = schema0.
  Proof.
    unfold kw_clash, struct_clash. intros H.
    repeat match goal with H : _ || _ = false |- _ => apply orb_false_iff in H; destruct H end.
    unfold dst_remainder, src_remainder, kw_drem, kw_srem, drem_str, srem_str, drem_ptr, srem_ptr, drem_slice, srem_slice.
    repeat match goal with H : _ = false |- _ => rewrite H; clear H end. split; reflexivity.
  Qed.

  Lemma no_tuple_rems (d s : option (option schema * list schema)) : no_tuple d -> no_tuple s ->
    no_tuple (keep_ptr d s) /\ no_tuple (drem_ptr d s) /\ no_tuple (srem_ptr d s).
  Proof. unfold keep_ptr, drem_ptr, srem_ptr. destruct d, s; simpl; auto. Qed.

  Lemma merge_node_valid d s P A v : plain_node d -> plain_node s ->
    valid (merge_node d s P A) v =
    (kw_merged (s_kw d) (s_kw s) v && (arr_ok (s_items d) v && arr_ok (s_items s) v) && forallb (fun c => valid c v) (s_allOf d)
     && (one_ok (s_oneOf d) v && one_ok (s_oneOf s) v) && (any_ok (s_anyOf d) v && any_ok (s_anyOf s) v)
     && (not_ok (s_not d) v && not_ok (s_not s) v) && props_ok P v && addl_ok P A v
     && (deps_ok (s_deps d) v && deps_ok (s_deps s) v)).
  Proof.
    intros (_ & _ & _ & _ & Ti & Tp & _) (_ & _ & _ & _ & Ui & Up & _).
    destruct (no_tuple_rems _ _ Ti Ui) as (N1 & N2 & N3).
    assert (Pp : keep_slice (s_patprops d) (s_patprops s) = [] /\ drem_slice (s_patprops d) (s_patprops s) = []
                 /\ srem_slice (s_patprops d) (s_patprops s) = []) by (rewrite Tp, Up; auto).
    destruct Pp as (P1 & P2 & P3).
    assert (Hr : forallb (fun c => valid c v) (s_allOf (merge_node d s P A)) =
                 forallb (fun c => valid c v) (s_allOf d) && valid (dst_remainder d s) v && valid (src_remainder d s) v).
    { unfold merge_node. cbn [s_allOf]. rewrite forallb_app. destruct (kw_clash (s_kw d) (s_kw s) || struct_clash d s) eqn:E; cbn [forallb].
      - rewrite andb_true_r, andb_assoc. reflexivity.
      - destruct (no_clash _ _ E) as [-> ->]. rewrite valid_schema0, !andb_true_r. reflexivity. }
    rewrite (valid_plain (merge_node d s P A)) by (simpl; auto). unfold node_ok. rewrite Hr. clear Hr.
    rewrite (valid_plain (dst_remainder d s)), (valid_plain (src_remainder d s)) by (simpl; auto).
    unfold node_ok, merge_node, dst_remainder, src_remainder, kw_merged. cbn [s_kw s_items s_allOf s_oneOf s_anyOf s_not s_props s_addl s_patprops s_deps s_addl_items s_defs].
    rewrite kw_ok_dedup.
    rewrite <- (ptr_conj (fun o => arr_ok o v) (s_items d) (s_items s)) by (destruct v; reflexivity).
    rewrite <- (slice_conj (fun o => one_ok o v) (s_oneOf d) (s_oneOf s)) by reflexivity.
    rewrite <- (slice_conj (fun o => any_ok o v) (s_anyOf d) (s_anyOf s)) by reflexivity.
    rewrite <- (ptr_conj (fun o => not_ok o v) (s_not d) (s_not s)) by reflexivity.
    rewrite <- (slice_conj (fun o => deps_ok o v) (s_deps d) (s_deps s)) by (destruct v; reflexivity).
    assert (Z1 : props_ok [] v = true) by (destruct v; reflexivity). assert (Z2 : addl_ok [] None v = true) by (destruct v; reflexivity).
    rewrite Z1, Z2. cbn [forallb]. apply eq_true_iff_eq. rewrite !andb_true_iff. tauto.
  Qed.
End Merge.

(** ** What flattening keeps true of every node *)
Definition into d s := fst (flatten_into d s).

Lemma fold_into_cons e l d es : fold_into (e :: l) (d, es) = fold_into l (into d e, es ++ snd (flatten_into d e)).
Proof. unfold fold_into, into. simpl. destruct (flatten_into d e); reflexivity. Qed.
Lemma fold_into_errs l : forall d es, fst (fold_into l (d, es)) = fst (fold_into l (d, [])) /\
  snd (fold_into l (d, es)) = es ++ snd (fold_into l (d, [])).
Proof.
  induction l as [|e l IH]; intros d es; [simpl; rewrite app_nil_r; auto|]. rewrite !fold_into_cons. simpl.
  destruct (IH (into d e) (es ++ snd (flatten_into d e))) as [H1 H2]. destruct (IH (into d e) (snd (flatten_into d e))) as [H3 H4].
  rewrite H1, H2, H3, H4, app_assoc. auto.
Qed.

Lemma merge_addl_in a b c : In c (orbool_list (fst (merge_addl a b))) ->
  In c (orbool_list a) \/ In c (orbool_list b) \/
  exists x y, In x (orbool_list a) /\ (In y (orbool_list b) \/ y = schema0) /\ c = into y x.
Proof.
  unfold merge_addl. destruct a as [[ba [x|]]|]; destruct b as [[bb [y|]]|]; simpl; auto.
  - destruct (flatten_into y x) as [x' es'] eqn:E. simpl. intros [<-|[]]. right; right. exists x, y. unfold into. rewrite E. auto.
  - destruct (flatten_into schema0 x) as [x' es'] eqn:E. simpl. intros [<-|[]]. right; right. exists x, schema0. unfold into. rewrite E. auto.
Qed.

Section Closed.
  Variable Q : schema -> Prop.
  Hypothesis Qwf : forall s, Q s -> node_wf s.
  Hypothesis Q0 : Q schema0.
  Hypothesis Qmerge : forall d s, Q d -> Q s ->
    Q (merge_node d s (fst (merge_props (s_props s) (s_props d, []))) (fst (merge_addl (s_addl s) (s_addl d)))).
  Hypothesis Qdrem : forall d s, Q d -> Q s -> Q (dst_remainder d s).
  Hypothesis Qsrem : forall d s, Q d -> Q s -> Q (src_remainder d s).

  Lemma all_schema0 : all_nodes Q schema0.
  Proof. apply all_nodes_intro; [exact Q0|]. intros c []. Qed.

  Lemma into_all src : forall d, all_nodes Q d -> all_nodes Q src -> all_nodes Q (into d src).
  Proof.
    induction src as [src IH] using schema_rec_ind. intros dst Hdst Hs.
    assert (Hd : all_nodes Q (fst (fold_into (s_allOf src) (dst, [])))).
    { assert (Hl : forall e, In e (s_allOf src) -> In e (children src)) by (intros e He; apply in_children; auto).
      revert Hl. generalize (s_allOf src) as l. clear - Hdst IH Hs. intros l Hl. revert dst Hdst.
      induction l as [|e l IHl]; intros dst Hdst; [exact Hdst|]. rewrite fold_into_cons.
      rewrite (proj1 (fold_into_errs l (into dst e) _)). apply IHl; [intros; apply Hl; right; assumption|].
      apply IH; [apply Hl; left; reflexivity|exact Hdst|]. eapply all_nodes_child; [exact Hs|apply Hl; left; reflexivity]. }
    unfold into. rewrite flatten_into_eq. cbv zeta. set (d := fst (fold_into (s_allOf src) (dst, []))) in *. clearbody d. cbn [fst].
    pose proof (all_nodes_root _ _ Hd) as Qd. pose proof (all_nodes_root _ _ Hs) as Qs.
    destruct (Qwf _ Qd) as (Nd & _). destruct (Qwf _ Qs) as (Ns & _).
    apply all_nodes_intro; [apply Qmerge; assumption|]. intros c Hc. apply in_children in Hc.
    assert (Od : forall c, In c (others d) -> all_nodes Q c) by (intros x Hx; eapply all_nodes_child; [exact Hd|apply in_children; auto]).
    assert (Os : forall c, In c (others src) -> all_nodes Q c) by (intros x Hx; eapply all_nodes_child; [exact Hs|apply in_children; auto]).
    destruct Hc as [Hc|[Hc|[Hc|Hc]]].
    - unfold merge_node in Hc. cbn [s_allOf] in Hc. apply in_app_iff in Hc as [Hc|Hc].
      { eapply all_nodes_child; [exact Hd|apply in_children; auto]. }
      destruct (kw_clash (s_kw d) (s_kw src) || struct_clash d src); [|destruct Hc]. destruct Hc as [<-|[<-|[]]]; apply all_nodes_intro.
      + apply Qdrem; assumption. + intros x Hx. apply Od. eapply in_others_drem; eauto.
      + apply Qsrem; assumption. + intros x Hx. apply Os. eapply in_others_srem; eauto.
    - unfold merge_node in Hc. cbn [s_props] in Hc. apply in_map_iff in Hc as ([k x] & <- & Hc). cbn [snd].
      apply merge_props_in in Hc; [|assumption|assumption]. destruct Hc as [Hc|[Hc|(a & b & Ha & Hb & ->)]].
      + eapply all_nodes_child; [exact Hd|apply in_children; right; left; apply in_map_iff; exists (k, x); auto].
      + eapply all_nodes_child; [exact Hs|apply in_children; right; left; apply in_map_iff; exists (k, x); auto].
      + assert (In b (children src)) by (apply in_children; right; left; apply in_map_iff; exists (k, b); auto).
        apply (IH b); [assumption| |eapply all_nodes_child; [exact Hs|assumption]].
        eapply all_nodes_child; [exact Hd|apply in_children; right; left; apply in_map_iff; exists (k, a); auto].
    - unfold merge_node in Hc. cbn [s_addl] in Hc. apply merge_addl_in in Hc as [Hc|[Hc|(x & y & Hx & Hy & ->)]].
      + eapply all_nodes_child; [exact Hs|apply in_children; auto].
      + eapply all_nodes_child; [exact Hd|apply in_children; auto].
      + assert (In x (children src)) by (apply in_children; auto). apply IH; [assumption| |eapply all_nodes_child; [exact Hs|assumption]].
        destruct Hy as [Hy| ->]; [eapply all_nodes_child; [exact Hd|apply in_children; auto]|exact all_schema0].
    - assert (In c (others (merge_node d src [] None))) as Hc' by exact Hc.
      apply in_others_keep in Hc' as [Hc'|Hc']; [apply Od|apply Os]; exact Hc'.
  Qed.

  Lemma fold_into_all l : forall d es, all_nodes Q d -> (forall e, In e l -> all_nodes Q e) -> all_nodes Q (fst (fold_into l (d, es))).
  Proof.
    induction l as [|e l IH]; intros d es Hd Hl; [exact Hd|]. rewrite fold_into_cons. apply IH; [|intros; apply Hl; right; assumption].
    apply into_all; [exact Hd|apply Hl; left; reflexivity].
  Qed.
End Closed.

Lemma keep_slice_wf {A} (d s : list (string * A)) : NoDup (mkeys d) -> NoDup (mkeys s) -> NoDup (mkeys (keep_slice d s)).
Proof. intros. destruct (keep_slice_cases d s) as [(_ & [->| ->] & _)|(_ & -> & _)]; try assumption; constructor. Qed.
Lemma drem_slice_wf {A} (d s : list (string * A)) : NoDup (mkeys d) -> NoDup (mkeys (drem_slice d s)).
Proof. intros. destruct (keep_slice_cases d s) as [(_ & _ & -> & _)|(_ & _ & -> & _)]; try assumption; constructor. Qed.
Lemma srem_slice_wf {A} (d s : list (string * A)) : NoDup (mkeys s) -> NoDup (mkeys (srem_slice d s)).
Proof. intros. destruct (keep_slice_cases d s) as [(_ & _ & _ & ->)|(_ & _ & _ & ->)]; try assumption; constructor. Qed.

Lemma merge_node_wf d s es A : node_wf d -> node_wf s -> node_wf (merge_node d s (fst (merge_props (s_props s) (s_props d, es))) A).
Proof.
  intros (D1 & D2 & D3 & D4) (S1 & S2 & S3 & S4). unfold node_wf, merge_node. simpl.
  repeat split; try (apply keep_slice_wf; assumption). apply merge_props_nodup; assumption.
Qed.
Lemma drem_node_wf d s : node_wf d -> node_wf (dst_remainder d s).
Proof. intros (D1 & D2 & D3 & D4). unfold node_wf. simpl. repeat split; try (apply drem_slice_wf; assumption). constructor. Qed.
Lemma srem_node_wf d s : node_wf s -> node_wf (src_remainder d s).
Proof. intros (D1 & D2 & D3 & D4). unfold node_wf. simpl. repeat split; try (apply srem_slice_wf; assumption). constructor. Qed.
Lemma schema0_wf : node_wf schema0.
Proof. repeat split; constructor. Qed.

Lemma plain_merge d s : plain_node d -> plain_node s ->
  plain_node (merge_node d s (fst (merge_props (s_props s) (s_props d, []))) (fst (merge_addl (s_addl s) (s_addl d)))).
Proof.
  intros (D1 & D2 & D3 & D4 & D5 & D6 & D7) (S1 & S2 & S3 & S4 & S5 & S6 & S7).
  split; [apply merge_node_wf; assumption|]. unfold merge_node. simpl. rewrite D2, D3, D4, D6, S2, S3, S4, S6. simpl.
  repeat split; auto.
  - exact (proj1 (no_tuple_rems _ _ D5 S5)).
  - revert D7 S7. unfold merge_addl. destruct (s_addl s) as [[bs [x|]]|], (s_addl d) as [[bd o]|]; auto.
    destruct (flatten_into _ x). simpl. intros _ _. congruence.
Qed.
Lemma plain_drem d s : plain_node d -> plain_node s -> plain_node (dst_remainder d s).
Proof.
  intros (D1 & D2 & D3 & D4 & D5 & D6 & D7) (S1 & S2 & S3 & S4 & S5 & S6 & S7).
  split; [apply drem_node_wf; assumption|]. unfold dst_remainder. simpl. rewrite D2, D6, S2, S6. simpl.
  repeat split; auto; [|congruence]. apply (no_tuple_rems _ _ D5 S5).
Qed.
Lemma plain_srem d s : plain_node d -> plain_node s -> plain_node (src_remainder d s).
Proof.
  intros (D1 & D2 & D3 & D4 & D5 & D6 & D7) (S1 & S2 & S3 & S4 & S5 & S6 & S7).
  split; [apply srem_node_wf; assumption|]. unfold src_remainder. simpl. rewrite D2, D6, S2, S6. simpl.
  repeat split; auto; [|congruence]. apply (no_tuple_rems _ _ D5 S5).
Qed.
Lemma plain_schema0 : plain_node schema0.
Proof. split; [apply schema0_wf|]. simpl. repeat split; congruence. Qed.
Lemma plain_wf s : plain_node s -> node_wf s.
Proof. intros H; apply H. Qed.

Lemma into_plain d s : plain d -> plain s -> plain (into d s).
Proof. apply into_all; auto using plain_merge, plain_drem, plain_srem, plain_schema0, plain_wf. Qed.
Lemma fold_into_plain l d es : plain d -> (forall e, In e l -> plain e) -> plain (fst (fold_into l (d, es))).
Proof. apply fold_into_all; auto using plain_merge, plain_drem, plain_srem, plain_schema0, plain_wf. Qed.
