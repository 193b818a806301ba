(** * C66: the markers of packages and types, for names that are for both *)
From Coq Require Import List String Ascii Bool Arith ZArith NArith QArith Permutation Lia.
From Verif Require Import GoLib GoLibFacts MapFacts DocModel SchemaModel ErrorsModel RegistryModel RegistrySpec RegistryProofs CollectModel CollectSpec CollectProofs CollectProps
  TablesModel TablesSpec TablesProofs TablesProofs2 TablesProofs3 TablesProofs4 TablesProps SourceModel SourceSpec SourceProofs SourceProofs2 SourceProofs3 SourceProofs4 SourceProps OriginModel OriginSpec OriginProofs OriginProofs2.
From Verif Require Import DeepModel ImportModel ObjectModel ObjectSpec CopiesModel CopiesSpec.
Import ListNotations.
Open Scope string_scope.
Open Scope list_scope.

(** ** The places *)
Section Root.
  Variable A : Type.
  Variable reg : registry A.
  Variable order : list (nat * list marker) -> list (nat * list marker).
  Hypothesis order_perm : forall l, Permutation (order l) l.
  Variable f : SourceModel.file.
  Hypothesis P : parsed_file f.
  Variable res : list (nat * list marker).
  Hypothesis Hres : file_markers A reg order (f_groups f) (f_node f) = Some res.
  Notation es := (events f).
  Notation all := (f_groups f).

  Lemma root_only_iff c : misplaced reg (mkMarker c false) = false ->
    ((exists d, In (mkMarker c d) (root_list f res)) <-> is_marker_comment (c_text c) = true /\ exists g, In g all /\ In c (g_list g) /\ at_package_only f g).
  Proof.
    intros M. assert (P0 := P). destruct P as [Rf W]. destruct (CollectProps.package_markers A reg order order_perm all (f_root f) (f_children f) Rf W res Hres) as (tail & E & Pm).
    unfold root_list. rewrite E. change (walk true (Node (f_root f) (f_children f))) with es in *. split.
    - intros (d & H). rewrite !in_app_iff, in_flat_map in H. destruct H as [([top h|h] & I & H)|[H|H]].
      + cbn [to_package] in H. rewrite in_app_iff in H.
        assert (Q : (top = true /\ In (mkMarker c d) (CollectSpec.written false (farther all es h))) \/
          (In (mkMarker c d) (CollectSpec.written false (closest all es h)) /\ match h_kind h with KFile => True | KDecl paren typ => paren = true \/ typ = false | KOther => top = true | KType | KField => False end) \/
          (h_kind h = KFile /\ In (mkMarker c d) (CollectSpec.written true (docs all es h)))).
        { destruct H as [H|H]; [destruct top; [now left|destruct H]|]. right. destruct (h_kind h) as [|p t| | |]; try now destruct H.
          - unfold own in H. apply in_app_or in H. destruct H as [H|H]; [left|right]; auto.
          - destruct p, t; cbn in H |- *; try (destruct H); left; auto.
          - destruct top; [auto|destruct H]. }
        destruct Q as [(T & Q)|[(Q & K)|(K & Q)]]; apply in_written in Q; destruct Q as (_ & Mk & g & Hg & Hc); (split; [exact Mk|]); exists g.
        * destruct (farther_above f h g Hg) as (Ha & Hd). destruct (above_at f P0 top h g I Ha) as (Hi & Hn). split; [exact Hi|]. split; [exact Hc|]. unfold at_package_only. rewrite Hn, Hd. auto.
        * destruct (closest_above f h g Hg) as (Ha & Hd). destruct (above_at f P0 top h g I Ha) as (Hi & Hn). split; [exact Hi|]. split; [exact Hc|]. unfold at_package_only. rewrite Hn, Hd. auto.
        * apply filter_In in Hg. destruct Hg as (Ha & Hd). destruct (above_at f P0 top h g I Ha) as (Hi & Hn). split; [exact Hi|]. split; [exact Hc|]. unfold at_package_only. rewrite Hn, Hd. exact K.
      + destruct H.
      + apply in_written in H. destruct H as (_ & Mk & g & Hg & Hc). split; [exact Mk|]. exists g. apply filter_In in Hg. destruct Hg as (Hi & Hn). split; [exact Hi|]. split; [exact Hc|].
        unfold at_package_only. destruct (next es g); [discriminate|exact I].
      + exfalso. apply (Permutation_in _ Pm) in H. apply moved_in in H. destruct H as (p & top & h & q & Ee & T & H). unfold moved_from in H. apply filter_In in H. destruct H as (H & Mi).
        destruct d; [discriminate Mi|congruence].
    - intros (Mk & g & Hi & Hc & At). unfold at_package_only in At. destruct (next es g) as [[top h|h]|] eqn:Hn; [|destruct At|].
      + assert (I : In (Enter top h) es) by (apply find_some in Hn; apply Hn).
        assert (Ha : In g (above all es h)). { unfold above. apply filter_In. split; [exact Hi|]. rewrite Hn. apply Nat.eqb_refl. }
        assert (Wr : forall d gs, In g gs -> In (mkMarker c d) (CollectSpec.written d gs)) by (intros d gs Hg; apply in_written; split; [reflexivity|]; split; [exact Mk|]; now exists g).
        assert (Top : forall d, In (mkMarker c d) (to_package all es (Enter top h)) -> exists d, In (mkMarker c d) (flat_map (to_package all es) es ++ CollectSpec.written false (below all es) ++ tail)).
        { intros d H. exists d. apply in_or_app. left. apply in_flat_map. now exists (Enter top h). }
        destruct (is_doc h g) eqn:Hd.
        * apply (Top true). cbn [to_package]. rewrite At. apply in_or_app. right. unfold own. apply in_or_app. right. apply Wr. apply filter_In. auto.
        * destruct At as [(-> & Hf)|(Hcl & K)].
          -- apply (Top false). cbn [to_package]. apply in_or_app. left. apply Wr, Hf.
          -- assert (Q := Wr false _ Hcl). apply (Top false). cbn [to_package]. apply in_or_app. right. destruct (h_kind h) as [|p t| | |] eqn:Kh; [|destruct K as [K|K]|destruct K|destruct K|].
             ++ unfold own. apply in_or_app. now left.
             ++ subst p. exact Q.
             ++ subst t. rewrite orb_true_r. exact Q.
             ++ rewrite K. exact Q.
      + exists false. apply in_or_app. right. apply in_or_app. left. apply in_written. split; [reflexivity|]. split; [exact Mk|]. exists g. split; [|exact Hc]. unfold below. apply filter_In. now rewrite Hn.
  Qed.
End Root.

(** A text that is found for packages, by a name that is also for types, is found for types. *)
Lemma both_found gs text d k : lookup payload (registry_of gs) ("+" ++ text) DescribesPackage = Some d -> known gs k DescribesType (d_name d) ->
  exists d', lookup payload (registry_of gs) ("+" ++ text) DescribesType = Some d'.
Proof.
  intros L K. apply known_definition in K as (d1 & I1 & T1 & N1 & _). unfold lookup, try_anon_lookup in *. destruct (split_marker ("+" ++ text)) as [[[name anon] rest]|]; [|discriminate].
  assert (Here : forall n, mget String.eqb (for_pkg payload (registry_of gs)) n = Some d -> exists d', mget String.eqb (for_type payload (registry_of gs)) n = Some d').
  { intros n G. apply (table_iff payload (definitions gs) DescribesPackage n d) in G. apply registered_iff in G as (_ & _ & <-). exists d1. apply (table_iff payload (definitions gs) DescribesType (d_name d) d1). apply registered_iff. auto. }
  destruct (mget String.eqb (for_pkg payload (registry_of gs)) anon) as [d2|] eqn:G.
  - injection L as ->. destruct (Here anon G) as (d' & ->). eauto.
  - destruct (mget String.eqb (for_type payload (registry_of gs)) anon) as [d'|]; [eauto|]. destruct (Here name L) as (d' & ->). eauto.
Qed.

Lemma package_values_nodup (vorder : list (string * list tvalue) -> list (string * list tvalue)) : forall fs res, NoDup (map fst res) -> NoDup (map fst (package_values tvalue vorder fs res)).
Proof.
  induction fs as [|f fs IH]; intros res N; cbn [package_values]; [exact N|]. apply IH. revert res N. generalize (vorder f). induction l as [|kv l IHl]; intros res N; cbn [fold_left]; [exact N|].
  apply IHl. apply (MapFacts.mset_nodup _ _ String.eqb String.eqb_eq). exact N.
Qed.

Section Values.
  Variable fval : string -> option Q.
  Variable json_read : string -> option json.
  Variable gs : list generator.
  Variable forder : SourceModel.file -> list (nat * list marker) -> list (nat * list marker).
  Variable vorder : list (string * list tvalue) -> list (string * list tvalue).
  Hypothesis forder_perm : forall f l, Permutation (forder f l) l.
  Hypothesis vorder_perm : forall l, Permutation (vorder l) l.
  Notation marks := (marks fval json_read gs forder).
  Notation said := (said fval json_read gs).
  Notation all_said := (all_said fval json_read gs).
  Notation pkg_set := (package_set fval json_read gs forder vorder).
  Notation vals_of := (values_of payload tvalue (registry_of gs) (parse_value fval json_read)).

  Lemma package_only_iff p n v k : Forall parsed_file p -> known gs k DescribesType n ->
    (In v (of_name (package_result fval json_read gs forder vorder p) n) <-> exists c text, package_only_comment p c /\ SourceSpec.comment_is c text /\ In v (vals_of DescribesPackage n (mkMarker c false))).
  Proof.
    intros F N. rewrite (result_named fval json_read gs forder vorder vorder_perm), in_flat_map. rewrite Forall_forall in F.
    assert (Mi : forall c text, SourceSpec.comment_is c text -> In v (vals_of DescribesPackage n (mkMarker c false)) -> misplaced (registry_of gs) (mkMarker c false) = false).
    { intros c text C H. unfold values_of in H. apply comment_is_iff in C. destruct C as (_ & C). unfold misplaced, CollectSpec.known. rewrite C in H |- *. destruct (lookup payload (registry_of gs) ("+" ++ text) DescribesPackage) as [d|] eqn:L; [|destruct H].
      destruct (String.eqb_spec (d_name d) n) as [<-|]; [|destruct H]. destruct (both_found gs text d k L N) as (d' & ->). cbn. reflexivity. }
    split.
    - intros (f & If & H). apply in_flat_map in H. destruct H as ([c d] & Im & H). assert (H' : In v (vals_of DescribesPackage n (mkMarker c false))) by exact H.
      assert (P := F f If). assert (M : is_marker_comment (c_text c) = true).
      { unfold roots_of, root_list in Im. destruct (mget Nat.eqb (nodes_of gs forder f) (h_id (f_root f))) as [l|] eqn:G; [|destruct Im]. destruct P as (Rf & W).
        assert (Q := proj1 (collected_iff payload (registry_of gs) (forder f) (forder_perm f) (f_groups f) (f_root f) (f_children f) Rf W (nodes_of gs forder f) (nodes_some gs forder forder_perm f (conj Rf W)) c d)). apply Q.
        exists (h_id (f_root f)), l. split; [apply (mget_in _ _ _ Nat.eqb_eq), G|exact Im]. }
      destruct (collected_text c M) as (text & C). exists c, text. split; [|auto]. assert (Mc := Mi c text C H').
      destruct (proj1 (root_only_iff payload (registry_of gs) (forder f) (forder_perm f) f P (nodes_of gs forder f) (nodes_some gs forder forder_perm f P) c Mc) (ex_intro _ d Im)) as (_ & g & Ig & Ic & At). exists f, g. auto.
    - intros (c & text & (f & g & If & Ig & Ic & At) & C & H). exists f. split; [exact If|]. assert (P := F f If). assert (Mc := Mi c text C H).
      destruct (proj2 (root_only_iff payload (registry_of gs) (forder f) (forder_perm f) f P (nodes_of gs forder f) (nodes_some gs forder forder_perm f P) c Mc)) as (d & Im).
      { split; [apply (comment_is_iff c text), C|]. now exists g. }
      apply in_flat_map. exists (mkMarker c d). split; [exact Im|exact H].
  Qed.

  Lemma package_only_exact p m n v k k' : Forall parsed_file p -> pkg_set p = Some (inl m) -> known gs k DescribesType n -> known gs k' DescribesPackage n -> all_said (package_only_comment p) DescribesPackage ->
    (In v (of_name m n) <-> said (package_only_comment p) DescribesPackage n v).
  Proof.
    intros F E K K' A. destruct (result_inl fval json_read gs forder vorder forder_perm _ _ F E) as (-> & _). rewrite (package_only_iff p n v k F K). split.
    - intros (c & text & Pc & Ct & I). apply (read_back fval json_read gs DescribesPackage c false n v I (proj1 (proj1 (comment_is_iff c text) Ct)) _ Pc A).
    - intros (k1 & c & text & Pc & Ct & K1 & S). exists c, text. split; [exact Pc|]. split; [exact Ct|]. rewrite (value_said fval json_read gs c text k1 n v K1 Ct S). now left.
  Qed.
  Lemma package_result_nodup p m : Forall parsed_file p -> pkg_set p = Some (inl m) -> NoDup (map fst m).
  Proof.
    intros F E. destruct (result_inl fval json_read gs forder vorder forder_perm _ _ F E) as (-> & _). unfold package_result. apply package_values_nodup. constructor.
  Qed.

  (** The types of a package without errors, also if it is skipped by others *)
  Lemma clean_nodes gp m id : pkg_set (gp_files gp) = Some (inl m) -> node_set fval json_read gs forder (gp_files gp) id = Some (inl (marks gp id)).
  Proof.
    intros H. unfold OriginModel.marks. unfold package_set in H. unfold node_set. destruct (all_values fval json_read gs forder (gp_files gp)) as [[vss [|e es]]|]; [reflexivity|discriminate|discriminate].
  Qed.
  Lemma type_exact gp m d n v : compiled gp -> pkg_set (gp_files gp) = Some (inl m) -> In d (gp_decls gp) -> all_said (spec_comment gp (td_node d)) DescribesType ->
    (In v (of_name (marks gp (td_node d)) n) <-> said (spec_comment gp (td_node d)) DescribesType n v).
  Proof.
    intros C X Id A. split.
    - destruct (cp_types gp C d Id) as (f & before & top & h & after & If & Ih & Kh & Eh). pose proof (clean_nodes gp m (td_node d) X) as E. rewrite <- Eh in E |- *. intros H.
      destruct (type_values fval json_read gs forder forder_perm _ f before top h after _ n (cp_files gp C) (cp_nodes gp C) If Ih Kh E) as (_ & Ev). rewrite Ev in H. apply in_flat_map in H as ([c b] & Im & Iv).
      apply filter_In in Im as (Im & _). assert (Q : is_marker_comment (c_text c) = true /\ type_comment f before h c).
      { apply in_app_or in Im as [Im|Im].
        - unfold of_decl in Im. destruct (open_decl before) as [d0|] eqn:Eo; [|destruct Im]. destruct (own_comment f d0 c b Im) as (Mk & Nc). split; [exact Mk|]. right. now exists d0.
        - destruct (own_comment f h c b Im) as (Mk & Nc). split; [exact Mk|]. now left. }
      destruct Q as (Mk & Nc). apply (read_back fval json_read gs DescribesType c b n v Iv Mk); [exists f, before, top, h, after; auto|rewrite Eh; exact A].
    - intros (k & c & text & (f & before & top & h & after & If & Ih & Kh & Eh & Nc) & Ct & K & S). pose proof (clean_nodes gp m (td_node d) X) as E. rewrite <- Eh in E |- *.
      exact (source_type_complete fval json_read gs forder forder_perm _ f before top h after _ k n c text v (cp_files gp C) (cp_nodes gp C) If Ih Kh E Nc Ct K S).
  Qed.
  Lemma type_nodup gp m d : compiled gp -> pkg_set (gp_files gp) = Some (inl m) -> In d (gp_decls gp) -> NoDup (map fst (marks gp (td_node d))).
  Proof.
    intros C X Id. destruct (cp_types gp C d Id) as (f & before & top & h & after & If & Ih & Kh & Eh). pose proof (clean_nodes gp m (td_node d) X) as E. rewrite <- Eh in E |- *.
    destruct (type_values fval json_read gs forder forder_perm _ f before top h after _ "" (cp_files gp C) (cp_nodes gp C) If Ih Kh E) as (Em & _). rewrite Em. apply values_nodup.
  Qed.
End Values.
