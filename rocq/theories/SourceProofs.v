(** * Proofs for C59: the markers of the root of a file. *)

From Coq Require Import List String Bool Arith Lia Permutation.
From Verif Require Import GoLib GoLibFacts MapFacts DocModel RegistryModel CollectModel CollectSpec CollectProofs CollectFile CollectProps TablesModel SourceModel SourceSpec.
Import ListNotations.
Open Scope nat_scope.
Open Scope list_scope.

Section Root.
Variable A : Type.
Variable reg : registry A.
Variable order : list (nat * list marker) -> list (nat * list marker).
Hypothesis order_perm : forall l, Permutation (order l) l.
Variable f : file.
Hypothesis P : parsed_file f.
Notation all := (f_groups f).
Notation es := (events f).
Variable res : list (nat * list marker).
Hypothesis Hres : file_markers A reg order all (f_node f) = Some res.

Lemma moved_in m : forall l p, In m (moved A reg all (f_root f) (f_children f) p l) <->
  exists p1 top h q, l = p1 ++ Enter top h :: q /\ is_type h = true /\ In m (moved_from A reg all (f_root f) (f_children f) (p ++ p1) h).
Proof.
  induction l as [|e l IH]; intros p; cbn [moved].
  - split; [intros []|]. intros ([|] & ? & ? & ? & E & _); discriminate.
  - rewrite in_app_iff, IH. split.
    + intros [H|(p1 & top & h & q & -> & T & H)].
      * destruct e as [top h|h]; [|destruct H]. destruct (is_type h) eqn:T; [|destruct H]. exists [], top, h, l. rewrite app_nil_r. auto.
      * exists (e :: p1), top, h, q. rewrite <- app_assoc in H. auto.
    + intros ([|e' p1] & top & h & q & E & T & H); injection E as -> E.
      * subst. left. rewrite T. rewrite app_nil_r in H. exact H.
      * right. subst. exists p1, top, h, q. rewrite <- app_assoc. auto.
Qed.

Lemma open_decl_in p d : open_decl p = Some d -> single d = true /\ exists top, In (Enter top d) p.
Proof.
  induction p as [|e p IH] using rev_ind; [discriminate|]. rewrite open_snoc. destruct e as [top h|h].
  - destruct (single h) eqn:S.
    + intros [= <-]. split; [exact S|]. exists top. apply in_or_app. right. now left.
    + destruct (is_type h); [discriminate|]. intros H. destruct (IH H) as (S' & t & I). split; [exact S'|]. exists t. apply in_or_app. now left.
  - intros H. destruct (IH H) as (S' & t & I). split; [exact S'|]. exists t. apply in_or_app. now left.
Qed.

Lemma type_after d : forall q p, es = p ++ q -> open_decl p = Some d ->
  exists p1 top h q1, es = p1 ++ Enter top h :: q1 /\ is_type h = true /\ open_decl p1 = Some d.
Proof.
  induction q as [|e q IH]; intros p E O.
  - rewrite app_nil_r in E. destruct P as [_ W]. assert (C := wf_close _ _ W). rewrite E in C. congruence.
  - destruct e as [top h|h].
    + destruct (is_type h) eqn:T; [now exists p, top, h, q|]. destruct (single h) eqn:S.
      * destruct P as [_ W]. assert (C := wf_decl _ _ W p top h q E S). congruence.
      * apply (IH (p ++ [Enter top h])); [now rewrite <- app_assoc|]. rewrite open_snoc, S, T. exact O.
    + apply (IH (p ++ [Leave h])); [now rewrite <- app_assoc|]. rewrite open_snoc. exact O.
Qed.

Lemma closest_above h g : In g (closest all es h) -> In g (above all es h) /\ is_doc h g = false.
Proof.
  intros H. assert (Q : In g (others all es h)) by (rewrite closest_farther; apply in_or_app; now right). apply filter_In in Q. destruct Q as [Q1 Q2].
  split; [exact Q1|]. now destruct (is_doc h g).
Qed.
Lemma farther_above h g : In g (farther all es h) -> In g (above all es h) /\ is_doc h g = false.
Proof.
  intros H. assert (Q : In g (others all es h)) by (rewrite closest_farther; apply in_or_app; now left). apply filter_In in Q. destruct Q as [Q1 Q2].
  split; [exact Q1|]. now destruct (is_doc h g).
Qed.
Lemma above_at top h g : In (Enter top h) es -> In g (above all es h) -> In g all /\ next es g = Some (Enter top h).
Proof.
  intros E H. split; [|exact (above_next all (f_root f) (f_children f) (proj2 P) g top h E H)]. unfold above in H. apply filter_In in H. apply H.
Qed.

Definition root_list : list marker := match mget Nat.eqb res (h_id (f_root f)) with Some l => l | None => [] end.

(** For a marker that packages know and types do not *)
Lemma root_iff c : misplaced reg (mkMarker c false) = true ->
  ((exists d, In (mkMarker c d) root_list) <-> is_marker_comment (c_text c) = true /\ exists g, In g all /\ In c (g_list g) /\ at_package f g).
Proof.
  intros M. destruct P as [Rf W]. destruct (CollectProps.package_markers A reg order order_perm all (f_root f) (f_children f) Rf W res Hres) as (tail & E & Pm).
  unfold root_list. rewrite E. change (walk true (Node (f_root f) (f_children f))) with es in *. split.
  - intros (d & H). rewrite !in_app_iff, in_flat_map in H. destruct H as [([top h|h] & I & H)|[H|H]].
    + cbn [to_package] in H. rewrite in_app_iff in H.
      assert (Q : (top = true /\ In (mkMarker c d) (written false (farther all es h))) \/
        (In (mkMarker c d) (written false (closest all es h)) /\ match h_kind h with KFile | KDecl _ _ | KType => True | KOther => top = true | KField => False end) \/
        (h_kind h = KFile /\ In (mkMarker c d) (written true (docs all es h)))).
      { destruct H as [H|H]; [destruct top; [now left|destruct H]|]. right. destruct (h_kind h) as [|p t| | |]; try now destruct H.
        - unfold own in H. apply in_app_or in H. destruct H as [H|H]; [left|right]; auto.
        - destruct (p || negb t); [auto|destruct H].
        - destruct top; [auto|destruct H]. }
      destruct Q as [(T & Q)|[(Q & K)|(K & Q)]]; apply in_written in Q; destruct Q as (_ & Mk & g & Hg & Hc); (split; [exact Mk|]); exists g.
      * destruct (farther_above h g Hg) as (Ha & Hd). destruct (above_at top h g I Ha) as (Hi & Hn). split; [exact Hi|]. split; [exact Hc|]. unfold at_package. rewrite Hn, Hd. auto.
      * destruct (closest_above h g Hg) as (Ha & Hd). destruct (above_at top h g I Ha) as (Hi & Hn). split; [exact Hi|]. split; [exact Hc|]. unfold at_package. rewrite Hn, Hd. auto.
      * apply filter_In in Hg. destruct Hg as (Ha & Hd). destruct (above_at top h g I Ha) as (Hi & Hn). split; [exact Hi|]. split; [exact Hc|]. unfold at_package. rewrite Hn, Hd. exact K.
    + destruct H.
    + apply in_written in H. destruct H as (_ & Mk & g & Hg & Hc). split; [exact Mk|]. exists g. apply filter_In in Hg. destruct Hg as (Hi & Hn). split; [exact Hi|]. split; [exact Hc|].
      unfold at_package. destruct (next es g); [discriminate|exact I].
    + apply (Permutation_in _ Pm) in H. apply moved_in in H. destruct H as (p & top & h & q & Ee & T & H). unfold moved_from in H. apply filter_In in H. destruct H as (H & Mi).
      assert (d = false) as -> by (destruct d; [discriminate Mi|reflexivity]).
      assert (Ih : In (Enter top h) es) by (rewrite Ee; apply in_or_app; right; now left).
      assert (Q : exists t x, In (Enter t x) es /\ In (mkMarker c false) (written false (closest all es x)) /\ match h_kind x with KFile | KDecl _ _ | KType => True | KOther => t = true | KField => False end).
      { apply in_app_or in H. destruct H as [H|H].
        - unfold of_decl in H. cbn [app] in H. destruct (open_decl p) as [x|] eqn:O; [|destruct H]. destruct (open_decl_in p x O) as (S & t & I). exists t, x.
          split; [rewrite Ee; apply in_or_app; now left|]. unfold own in H. apply in_app_or in H. destruct H as [H|H]; [|apply in_written in H; destruct H; discriminate].
          split; [exact H|]. unfold single in S. destruct (h_kind x); easy.
        - exists top, h. split; [exact Ih|]. unfold own in H. apply in_app_or in H. destruct H as [H|H]; [|apply in_written in H; destruct H; discriminate].
          split; [exact H|]. unfold is_type in T. destruct (h_kind h); easy. }
      destruct Q as (t & x & I & Q & K). apply in_written in Q. destruct Q as (_ & Mk & g & Hg & Hc). split; [exact Mk|]. exists g.
      destruct (closest_above x g Hg) as (Ha & Hd). destruct (above_at t x g I Ha) as (Hi & Hn). split; [exact Hi|]. split; [exact Hc|]. unfold at_package. rewrite Hn, Hd. auto.
  - intros (Mk & g & Hi & Hc & At). unfold at_package in At. destruct (next es g) as [[top h|h]|] eqn:Hn; [|destruct At|].
    + assert (I : In (Enter top h) es) by (apply find_some in Hn; apply Hn).
      assert (Ha : In g (above all es h)). { unfold above. apply filter_In. split; [exact Hi|]. rewrite Hn. apply Nat.eqb_refl. }
      assert (Wr : forall d gs, In g gs -> In (mkMarker c d) (written d gs)) by (intros d gs Hg; apply in_written; split; [reflexivity|]; split; [exact Mk|]; now exists g).
      assert (Top : forall d, In (mkMarker c d) (to_package all es (Enter top h)) -> exists d, In (mkMarker c d) (flat_map (to_package all es) es ++ written false (below all es) ++ tail)).
      { intros d H. exists d. apply in_or_app. left. apply in_flat_map. now exists (Enter top h). }
      assert (Mv : forall p t x q, es = p ++ Enter t x :: q -> is_type x = true -> In (mkMarker c false) (of_decl all es (open_decl p) ++ own all es x) ->
        exists d, In (mkMarker c d) (flat_map (to_package all es) es ++ written false (below all es) ++ tail)).
      { intros p t x q Ee T H. exists false. apply in_or_app. right. apply in_or_app. right. apply (Permutation_in _ (Permutation_sym Pm)). apply moved_in.
        exists p, t, x, q. split; [exact Ee|]. split; [exact T|]. unfold moved_from. apply filter_In. split; [exact H|exact M]. }
      destruct (is_doc h g) eqn:Hd.
      * apply (Top true). cbn [to_package]. rewrite At. apply in_or_app. right. unfold own. apply in_or_app. right. apply Wr. apply filter_In. auto.
      * destruct At as [(-> & Hf)|(Hcl & K)].
        -- apply (Top false). cbn [to_package]. apply in_or_app. left. apply Wr, Hf.
        -- assert (Q := Wr false _ Hcl). destruct (h_kind h) as [|p t| | |] eqn:Kh; [| | |destruct K|].
           ++ apply (Top false). cbn [to_package]. rewrite Kh. apply in_or_app. right. unfold own. apply in_or_app. now left.
           ++ destruct (single h) eqn:S.
              ** destruct (in_split _ _ I) as (p1 & q1 & Ee). destruct (type_after h q1 (p1 ++ [Enter top h])) as (p2 & t2 & x & q2 & Ee2 & T2 & O2).
                 { rewrite Ee. now rewrite <- app_assoc. } { rewrite open_snoc, S. reflexivity. }
                 apply (Mv p2 t2 x q2 Ee2 T2). rewrite O2. apply in_or_app. left. cbn [of_decl]. unfold own. apply in_or_app. now left.
              ** apply (Top false). cbn [to_package]. rewrite Kh. apply in_or_app. right. unfold single in S. rewrite Kh in S. destruct p, t; try exact Q; discriminate.
           ++ destruct (in_split _ _ I) as (p1 & q1 & Ee). apply (Mv p1 top h q1 Ee); [unfold is_type; now rewrite Kh|]. apply in_or_app. right. unfold own. apply in_or_app. now left.
           ++ subst top. apply (Top false). cbn [to_package]. rewrite Kh. apply in_or_app. now right.
    + exists false. apply in_or_app. right. apply in_or_app. left. apply in_written. split; [reflexivity|]. split; [exact Mk|]. exists g. split; [|exact Hc]. unfold below. apply filter_In. now rewrite Hn.
Qed.
End Root.
