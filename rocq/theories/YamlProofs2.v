(** * Patching of CRD manifests. *)

From Coq Require Import List String Bool Arith Lia Permutation.
From Verif Require Import GoLib GoLibFacts YamlModel YamlSpec YamlProofs.
Import ListNotations.
Open Scope string_scope.
Open Scope list_scope.

(** ** Invariants of edits *)
Lemma paired_intro n : (n_kind n = Mapping -> Nat.even (List.length (n_content n)) = true) -> (forall c, In c (n_content n) -> paired c) -> paired n.
Proof.
  intros H1 H2 x Hx. rewrite nodes_eq in Hx. destruct Hx as [<-|Hx]; [exact H1|]. apply in_flat_map in Hx as (c & Hc & Hx). exact (H2 c Hc x Hx).
Qed.
Lemma unique_intro n : (n_kind n = Mapping -> NoDup (pair_keys (n_content n))) -> (forall c, In c (n_content n) -> unique_keys c) -> unique_keys n.
Proof.
  intros H1 H2 x Hx. rewrite nodes_eq in Hx. destruct Hx as [<-|Hx]; [exact H1|]. apply in_flat_map in Hx as (c & Hc & Hx). exact (H2 c Hc x Hx).
Qed.
Lemma unique_root n : unique_keys n -> n_kind n = Mapping -> NoDup (pair_keys (n_content n)).
Proof. intros H. apply H. rewrite nodes_eq. left. reflexivity. Qed.

Lemma upd_key_length k f c : List.length (upd_key k f c) = List.length c.
Proof. induction c as [|x|kn w c IH] using pair_ind; simpl; auto. destruct (String.eqb (n_value kn) k); simpl; auto. Qed.
Lemma upd_key_keys k f c : pair_keys (upd_key k f c) = pair_keys c.
Proof. induction c as [|x|kn w c IH] using pair_ind; simpl; auto. destruct (String.eqb (n_value kn) k); simpl; congruence. Qed.
Lemma upd_key_in k f c x : In x (upd_key k f c) -> In x c \/ exists v, find_key k c = Some v /\ x = f v.
Proof.
  induction c as [|y|kn w c IH] using pair_ind; simpl; auto. destruct (String.eqb (n_value kn) k); simpl.
  - intros [<-|[<-|H]]; eauto.
  - intros [<-|[<-|H]]; auto. destruct (IH H) as [H'|H']; auto.
Qed.
Lemma remove_key_even k c : Nat.even (List.length c) = true -> Nat.even (List.length (remove_key c k)) = true.
Proof. induction c as [|x|kn w c IH] using pair_ind; simpl; auto. destruct (String.eqb (n_value kn) k); simpl; auto. Qed.
Lemma remove_key_in k c x : In x (remove_key c k) -> In x c.
Proof. induction c as [|y|kn w c IH] using pair_ind; simpl; auto. destruct (String.eqb (n_value kn) k); simpl; intuition. Qed.
Lemma remove_key_keys_in k c x : In x (pair_keys (remove_key c k)) -> In x (pair_keys c).
Proof. induction c as [|y|kn w c IH] using pair_ind; simpl; auto. destruct (String.eqb (n_value kn) k); simpl; intuition. Qed.
Lemma remove_key_nodup k c : NoDup (pair_keys c) -> NoDup (pair_keys (remove_key c k)).
Proof.
  induction c as [|y|kn w c IH] using pair_ind; simpl; auto. intros H. inversion H; subst. destruct (String.eqb (n_value kn) k); simpl; auto.
  constructor; auto. intros Hx. apply remove_key_keys_in in Hx. contradiction.
Qed.
Lemma remove_key_absent k c : find_key k c = None -> remove_key c k = c.
Proof. induction c as [|y|kn w c IH] using pair_ind; simpl; auto. destruct (String.eqb (n_value kn) k); [discriminate|]. intros H. rewrite IH; auto. Qed.

Lemma redit_inv (P : node -> Prop) :
  (forall n, P n -> forall c, In c (n_content n) -> P c) ->
  (forall n k f v, P n -> find_key k (n_content n) = Some v -> P (f v) -> P (set_content n (upd_key k f (n_content n)))) ->
  forall f path cur m, P cur -> rget cur path = Some (Some m) -> P (f m) -> P (redit path f cur).
Proof.
  intros Hc Hu f path. induction path as [|k path IH]; intros cur m P0; simpl; [intros [= ->]; auto|].
  destruct (is_mapping cur); [|discriminate]. simpl. destruct (find_key k (n_content cur)) as [v|] eqn:F; [|discriminate]. intros H Hm.
  apply (Hu cur k _ v P0 F). apply (IH v m); auto. eapply Hc; [exact P0|eapply find_in; eauto].
Qed.
Lemma paired_redit f path cur m : paired cur -> rget cur path = Some (Some m) -> paired (f m) -> paired (redit path f cur).
Proof.
  apply redit_inv; [intros; eapply paired_child; eauto|]. intros n k g v P F Pv. apply paired_intro; simpl.
  - intros Hk. rewrite upd_key_length. apply paired_root; auto.
  - intros c Hc. apply upd_key_in in Hc as [Hc|(v' & F' & ->)]; [exact (paired_child _ _ P Hc)|]. assert (v' = v) by congruence. subst. exact Pv.
Qed.
Lemma unique_redit f path cur m : unique_keys cur -> rget cur path = Some (Some m) -> unique_keys (f m) -> unique_keys (redit path f cur).
Proof.
  apply redit_inv; [intros; eapply unique_child; eauto|]. intros n k g v P F Pv. apply unique_intro; simpl.
  - intros Hk. rewrite upd_key_keys. apply unique_root; auto.
  - intros c Hc. apply upd_key_in in Hc as [Hc|(v' & F' & ->)]; [exact (unique_child _ _ P Hc)|]. assert (v' = v) by congruence. subst. exact Pv.
Qed.
Lemma paired_remove n k : paired n -> paired (set_content n (remove_key (n_content n) k)).
Proof.
  intros P. apply paired_intro; simpl; [intros Hk; apply remove_key_even, paired_root; auto|]. intros c Hc. eapply paired_child; [exact P|eapply remove_key_in; eauto].
Qed.
Lemma unique_remove n k : unique_keys n -> unique_keys (set_content n (remove_key (n_content n) k)).
Proof.
  intros P. apply unique_intro; simpl; [intros Hk; apply remove_key_nodup, unique_root; auto|]. intros c Hc. eapply unique_child; [exact P|eapply remove_key_in; eauto].
Qed.
Lemma unique_get cur path m : unique_keys cur -> rget cur path = Some (Some m) -> unique_keys m.
Proof.
  revert cur. induction path as [|k path IH]; intros cur P; simpl; [intros [= ->]; exact P|]. destruct (is_mapping cur); [|discriminate]. simpl.
  destruct (find_key k (n_content cur)) as [v|] eqn:F; [|discriminate]. apply IH. eapply unique_child; [exact P|eapply find_in; eauto].
Qed.
Lemma paired_rdel key path cur m : paired cur -> rget cur path = Some (Some m) -> paired (rdel path key cur).
Proof. intros P H. rewrite rdel_redit. eapply paired_redit; eauto. apply paired_remove. eapply redit_paired_get; eauto. Qed.
Lemma unique_rdel key path cur m : unique_keys cur -> rget cur path = Some (Some m) -> unique_keys (rdel path key cur).
Proof. intros P H. rewrite rdel_redit. eapply unique_redit; eauto. apply unique_remove. eapply unique_get; eauto. Qed.

Lemma redit_get f path : forall cur m, rget cur path = Some (Some m) -> rget (redit path f cur) path = Some (Some (f m)).
Proof.
  induction path as [|k path IH]; intros cur m; simpl; [intros [= ->]; reflexivity|]. destruct (is_mapping cur) eqn:Em; [|discriminate]. simpl.
  destruct (find_key k (n_content cur)) as [v|] eqn:F; [|discriminate]. intros H.
  change (is_mapping (set_content cur (upd_key k (redit path f) (n_content cur)))) with (is_mapping cur). rewrite Em. simpl.
  rewrite (find_upd_same k _ _ v F). apply IH, H.
Qed.
Lemma redit_frame f c : forall cur a p' b q' m, a <> b -> rget cur (c ++ a :: p') = Some (Some m) ->
  rget (redit (c ++ a :: p') f cur) (c ++ b :: q') = rget cur (c ++ b :: q').
Proof.
  induction c as [|k c IH]; intros cur a p' b q' m Hab; simpl; destruct (is_mapping cur) eqn:Em; simpl; try discriminate.
  - change (is_mapping (set_content cur (upd_key a (redit p' f) (n_content cur)))) with (is_mapping cur). rewrite Em. simpl.
    intros _. rewrite find_upd_other by congruence. reflexivity.
  - destruct (find_key k (n_content cur)) as [v|] eqn:F; [|discriminate]. intros H.
    change (is_mapping (set_content cur (upd_key k (redit (c ++ a :: p') f) (n_content cur)))) with (is_mapping cur). rewrite Em. simpl.
    rewrite (find_upd_same k _ _ v F). apply (IH v a p' b q' m); auto.
Qed.
Lemma redit_id f path : forall cur m, rget cur path = Some (Some m) -> f m = m -> redit path f cur = cur.
Proof.
  induction path as [|k path IH]; intros cur m; simpl; [intros [= ->]; auto|]. destruct (is_mapping cur); [|discriminate]. simpl.
  destruct (find_key k (n_content cur)) as [v|] eqn:F; [|discriminate]. intros H E. rewrite (upd_key_id k _ _ v F (IH v m H E)). destruct cur; reflexivity.
Qed.
Lemma redit_kind f path cur : path <> [] -> n_kind (redit path f cur) = n_kind cur.
Proof. destruct path; [congruence|reflexivity]. Qed.
Lemma restart_id root f : f (start root) = start root -> restart root f = root.
Proof. unfold start, restart. destruct root as [[] h [|c cs]]; simpl; intros E; rewrite ?E; auto. Qed.
Lemma restart_restart root f g : (n_kind (f (start root)) <> Document) -> restart (restart root f) g = restart root (fun x => g (f x)).
Proof.
  unfold start, restart. destruct root as [[] h [|c cs]]; simpl; intros H; try reflexivity;
    match goal with |- match n_kind ?x with _ => _ end = _ => destruct (n_kind x); try reflexivity; congruence end.
Qed.

(** ** What get finds *)
Lemma find_unpair_none k ps : key_free k ps -> find_key k (unpair ps) = None.
Proof.
  induction ps as [|[a v] ps IH]; simpl; intros H; [reflexivity|]. destruct (String.eqb (n_value a) k) eqn:E; [apply String.eqb_eq in E; destruct (H (a, v) (or_introl eq_refl) E)|].
  apply IH. intros p Hp. apply H. right. exact Hp.
Qed.
Lemma find_unpair ps1 kn v ps2 : key_free (n_value kn) ps1 -> find_key (n_value kn) (unpair (ps1 ++ (kn, v) :: ps2)) = Some v.
Proof.
  induction ps1 as [|[a w] ps1 IH]; simpl; intros H; [rewrite String.eqb_refl; reflexivity|].
  destruct (String.eqb (n_value a) (n_value kn)) eqn:E; [apply String.eqb_eq in E; destruct (H (a, w) (or_introl eq_refl) E)|].
  apply IH. intros p Hp. apply H. right. exact Hp.
Qed.
Lemma found_rget path cur m : found path cur m -> rget cur path = Some (Some m).
Proof. induction 1 as [|h ps1 kn v ps2 rest m H1 H2 IH]; simpl; [reflexivity|]. rewrite find_unpair by assumption. exact IH. Qed.
Lemma missing_rget path cur : missing path cur -> rget cur path = Some None.
Proof. induction 1 as [h ps k rest H|h ps1 kn v ps2 rest H1 H2 IH]; simpl; [rewrite find_unpair_none by assumption; reflexivity|]. rewrite find_unpair by assumption. exact IH. Qed.
Lemma rget_found path : forall cur, paired cur -> match rget cur path with Some (Some m) => found path cur m | Some None => missing path cur | None => True end.
Proof.
  induction path as [|k path IH]; intros cur P; simpl; [constructor|]. destruct (is_mapping cur) eqn:Em; simpl; [|exact I]. apply is_mapping_eq in Em.
  pose proof (split_key k (n_content cur) (paired_root cur P Em)) as H. destruct (find_key k (n_content cur)) as [v|] eqn:F.
  - destruct H as (ps1 & kn & ps2 & E & <- & Hk & _). assert (Pv : paired v) by (eapply paired_child; [exact P|eapply find_in; eauto]). specialize (IH v Pv).
    rewrite (mapping_eta cur Em), E. destruct (rget v path) as [[m|]|]; [constructor; assumption|apply missing_key; assumption|exact I].
  - destruct H as (ps & E & Hk & _). rewrite (mapping_eta cur Em), E. apply missing_here, Hk.
Qed.
Lemma root_of_start root r : root_of root r <-> r = start root.
Proof.
  split.
  - intros H. destruct H as [h c rest|n H]; [reflexivity|]. unfold start. destruct n as [[] h [|c cs]]; simpl in *; try reflexivity. discriminate (H eq_refl).
  - intros ->. unfold start. destruct root as [[] h [|c cs]]; simpl; try (apply root_document); apply root_plain; simpl; congruence.
Qed.
Lemma get_found root path m : paired root -> (get_node root path = Some (Some m) <-> exists r, root_of root r /\ found path r m).
Proof.
  intros P. rewrite get_rget. split.
  - intros H. exists (start root). split; [apply root_of_start; reflexivity|]. pose proof (rget_found path (start root) (paired_start root P)) as G. rewrite H in G. exact G.
  - intros (r & H & G). apply root_of_start in H. subst. apply found_rget, G.
Qed.
Lemma get_missing root path : paired root -> (get_node root path = Some None <-> exists r, root_of root r /\ missing path r).
Proof.
  intros P. rewrite get_rget. split.
  - intros H. exists (start root). split; [apply root_of_start; reflexivity|]. pose proof (rget_found path (start root) (paired_start root P)) as G. rewrite H in G. exact G.
  - intros (r & H & G). apply root_of_start in H. subst. apply missing_rget, G.
Qed.

Section Patch.
  Variable T : Type.
  Variable to_yaml : T -> option node.
  Variable short_tag : node -> string.
  Variable new : list (string * T).
  Notation patch_version := (patch_version T to_yaml short_tag new).
  Notation patch_versions := (patch_versions T to_yaml short_tag new).
  Notation set_versioned := (set_versioned T to_yaml short_tag new).
  Notation version_patched := (version_patched T to_yaml new).
  Notation patched := (patched T to_yaml new).

  (** The structure of a successful run. *)
  Lemma set_versioned_inv doc doc' : set_versioned doc = Done doc' -> exists m vs l,
    rget (start doc) ["spec"] = Some (Some m) /\ is_mapping m = true /\
    rget (rdel ["spec"] "validation" (start doc)) ["spec"; "versions"] = Some (Some vs) /\ n_kind vs = Sequence /\
    patch_versions (n_content vs) = Done l /\
    doc' = restart doc (fun x => redit ["spec"; "versions"] (fun n => set_content n l) (rdel ["spec"] "validation" x)).
  Proof.
    unfold YamlModel.set_versioned. change ["spec"; "validation"] with (["spec"] ++ ["validation"]). rewrite delete_rdel.
    destruct (rget (start doc) ["spec"]) as [[m|]|] eqn:Es; try discriminate.
    2:{ unfold get_pos. pose proof (as_close_spec doc ["spec"; "versions"]) as H. destruct (as_close doc ["spec"; "versions"]) as [[q rest]|]; [|discriminate].
        destruct rest as [|k rest]; [|discriminate]. destruct H as (done & m & E & H1 & H2 & _). rewrite app_nil_r in E. subst done.
        change ["spec"; "versions"] with (["spec"] ++ ["versions"]) in H2. exfalso. simpl in Es, H2.
        destruct (is_mapping (start doc)); [|discriminate]. simpl in *. destruct (find_key "spec" (n_content (start doc))); discriminate. }
    destruct (is_mapping m) eqn:Em; [|discriminate].
    set (f := rdel ["spec"] "validation").
    assert (Hk : n_kind (start doc) = Mapping) by (eapply rget_kind; exact Es).
    assert (Est : start (restart doc f) = f (start doc)).
    { apply start_restart. left. unfold f. rewrite rdel_redit, redit_kind by discriminate. congruence. }
    unfold get_pos. pose proof (as_close_spec (restart doc f) ["spec"; "versions"]) as H.
    destruct (as_close (restart doc f) ["spec"; "versions"]) as [[q rest]|]; [|discriminate].
    destruct rest as [|k rest]; [|discriminate]. destruct H as (done & vs & E & H1 & H2 & H3 & _). rewrite app_nil_r in E. subst done.
    rewrite H1. destruct (ykind_eqb (n_kind vs) Sequence) eqn:Ek; [|discriminate]. apply kind_eqb_eq in Ek. simpl negb. cbv iota.
    destruct (patch_versions (n_content vs)) as [l| |] eqn:Ep; try discriminate. intros [= <-].
    exists m, vs, l. repeat split; auto; [rewrite <- Est; exact H2|]. rewrite H3. apply restart_restart.
    unfold f. rewrite rdel_redit, redit_kind by discriminate. congruence.
  Qed.

  Lemma patch_version_inv v v' : patch_version v = Done v' -> exists name,
    get_node v ["name"] = Some (Some name) /\ n_value name <> "" /\ n_kind name = Scalar /\ short_tag name = "!!str" /\
    match mget String.eqb new (n_value name) with
    | Some s => exists y, to_yaml s = Some y /\ set_node v (set_style 0 y) ["schema"; "openAPIV3Schema"] = Some v'
    | None => delete_node v ["schema"] = Some v'
    end.
  Proof.
    unfold YamlModel.patch_version. destruct (get_node v ["name"]) as [[name|]|]; try discriminate.
    destruct (ykind_eqb (n_kind name) Scalar) eqn:Ek; [|discriminate]. destruct (String.eqb (short_tag name) "!!str") eqn:Et; [|discriminate].
    simpl. destruct (String.eqb (n_value name) "") eqn:Ev; [discriminate|]. intros H. exists name. split; [reflexivity|].
    split; [apply String.eqb_neq, Ev|]. split; [apply kind_eqb_eq, Ek|]. split; [apply String.eqb_eq, Et|].
    destruct (mget String.eqb new (n_value name)) as [s|].
    - destruct (to_yaml s) as [y|]; [|discriminate]. exists y. split; [reflexivity|].
      destruct (set_node v (set_style 0 y) ["schema"; "openAPIV3Schema"]); [congruence|discriminate].
    - destruct (delete_node v ["schema"]); [congruence|discriminate].
  Qed.
  Lemma patch_versions_inv vs : forall l, patch_versions vs = Done l -> Forall2 (fun v v' => patch_version v = Done v') vs l.
  Proof.
    induction vs as [|v vs IH]; intros l; simpl; [intros [= <-]; constructor|]. destruct (patch_version v) eqn:E; try discriminate.
    destruct (patch_versions vs); try discriminate. intros [= <-]. constructor; auto.
  Qed.
  Lemma patch_versions_done vs l : Forall2 (fun v v' => patch_version v = Done v') vs l -> patch_versions vs = Done l.
  Proof. induction 1 as [|v v' vs l H1 H2 IH]; simpl; [reflexivity|]. rewrite H1, IH. reflexivity. Qed.

  Lemma set_in_doc root val path root' : paired root -> set_node root val path = Some root' -> in_doc (sets val path) root root'.
  Proof.
    intros P. rewrite set_rset. destruct (rget (start root) path) as [r|] eqn:E; [|discriminate]. intros [= <-].
    apply in_doc_restart. eapply rset_sets; [apply paired_start, P|exact E].
  Qed.
  Lemma delete_in_doc root path root' : paired root -> delete_node root path = Some root' -> in_doc (deletes path) root root'.
  Proof.
    intros P. destruct (rev path) as [|key rp] eqn:Er; [unfold delete_node; rewrite Er; discriminate|].
    assert (E : path = rev rp ++ [key]) by (rewrite <- (rev_involutive path), Er; reflexivity). rewrite E, delete_rdel.
    destruct (rget (start root) (rev rp)) as [[m|]|] eqn:Eg; try discriminate.
    - destruct (is_mapping m) eqn:Em; [|discriminate]. intros [= <-]. apply in_doc_restart. eapply rdel_deletes; eauto. apply paired_start, P.
    - intros [= <-]. rewrite <- (restart_id root (fun x => x) eq_refl) at 2. apply (in_doc_restart _ root (fun x => x)). apply absent_deletes; [apply paired_start, P|exact Eg].
  Qed.

  Lemma set_versioned_patched doc doc' : paired doc -> set_versioned doc = Done doc' -> patched doc doc'.
  Proof.
    intros P H. destruct (set_versioned_inv doc doc' H) as (m & vs & l & H1 & H2 & H3 & H4 & H5 & ->).
    set (f := rdel ["spec"] "validation"). exists (restart doc f).
    assert (Hk : n_kind (start doc) = Mapping) by (eapply rget_kind; exact H1).
    assert (Hf : n_kind (f (start doc)) <> Document) by (unfold f; rewrite rdel_redit, redit_kind by discriminate; congruence).
    split.
    - apply in_doc_restart. apply (rdel_deletes ["spec"] "validation" (start doc) m); auto. apply paired_start, P.
    - rewrite <- (restart_restart doc f) by exact Hf. apply in_doc_restart. rewrite start_restart by (left; exact Hf).
      apply (redit_edit _ _ _ _ vs); [eapply paired_rdel; [apply paired_start, P|exact H1]|exact H3|].
      exists (n_head vs), (n_content vs), l. split; [destruct vs; simpl in *; subst; reflexivity|]. split; [unfold set_content; rewrite H4; reflexivity|].
      apply patch_versions_inv in H5.
      assert (Pv : forall v, In v (n_content vs) -> paired v).
      { intros v Hv. eapply paired_child; [|exact Hv]. eapply redit_paired_get; [|exact H3]. eapply paired_rdel; [apply paired_start, P|exact H1]. }
      clear -H5 Pv. induction H5 as [|v v' vs' l' Hv Hl IH]; [constructor|]. constructor; [|apply IH; intros; apply Pv; right; assumption].
      destruct (patch_version_inv v v' Hv) as (name & G1 & G2 & _ & _ & G3).
      assert (P0 : paired v) by (apply Pv; left; reflexivity). apply (get_found v ["name"] name P0) in G1 as (r & R1 & R2).
      exists r, name. split; [exact R1|]. split; [exact R2|]. split; [exact G2|].
      destruct (mget String.eqb new (n_value name)) as [s|]; [|apply delete_in_doc; assumption].
      destruct G3 as (y & Y1 & Y2). exists y. split; [exact Y1|]. apply set_in_doc; assumption.
  Qed.

  (** Reading through the run. *)
  Lemma patched_start doc doc' m vs l : rget (start doc) ["spec"] = Some (Some m) ->
    doc' = restart doc (fun x => redit ["spec"; "versions"] (fun n => set_content n l) (rdel ["spec"] "validation" x)) ->
    rget (rdel ["spec"] "validation" (start doc)) ["spec"; "versions"] = Some (Some vs) ->
    start doc' = redit ["spec"; "versions"] (fun n => set_content n l) (rdel ["spec"] "validation" (start doc)).
  Proof.
    intros H1 -> H3. assert (Hk : n_kind (start doc) = Mapping) by (eapply rget_kind; exact H1).
    rewrite start_restart; [reflexivity|]. left. rewrite redit_kind, rdel_redit, redit_kind by discriminate. congruence.
  Qed.

  Lemma rdel_spec_frame cur m q : rget cur ["spec"] = Some (Some m) -> is_mapping m = true ->
    diverge ["spec"; "validation"] q -> rget (rdel ["spec"] "validation" cur) q = rget cur q.
  Proof.
    intros H1 H2 (c & a & b & p' & q' & E1 & -> & Hab). destruct c as [|k c]; simpl in E1; injection E1 as E0 E1.
    - subst. apply (rdel_frame "validation" [] cur ["spec"] b q' m); auto. right. exists "spec", []. auto.
    - destruct c as [|k' c]; simpl in E1; injection E1 as E2 E3; subst.
      + apply (rdel_frame "validation" ["spec"] cur ["spec"] b q' m); auto.
      + destruct c; discriminate.
  Qed.

  Lemma patched_frame doc doc' q : set_versioned doc = Done doc' ->
    diverge ["spec"; "validation"] q -> diverge ["spec"; "versions"] q -> get_node doc' q = get_node doc q.
  Proof.
    intros H D1 D2. destruct (set_versioned_inv doc doc' H) as (m & vs & l & H1 & H2 & H3 & H4 & H5 & E).
    rewrite !get_rget, (patched_start doc doc' m vs l H1 E H3).
    rewrite <- (rdel_spec_frame (start doc) m q H1 H2 D1). destruct D2 as (c & a & b & p' & q' & E1 & -> & Hab).
    rewrite E1 in *. eapply redit_frame; eauto.
  Qed.

  Lemma patched_validation doc doc' r : unique_keys doc -> set_versioned doc = Done doc' -> get_node doc' ("spec" :: "validation" :: r) = Some None.
  Proof.
    intros U H. destruct (set_versioned_inv doc doc' H) as (m & vs & l & H1 & H2 & H3 & H4 & H5 & E).
    rewrite get_rget, (patched_start doc doc' m vs l H1 E H3).
    pose proof (redit_frame (fun n => set_content n l) ["spec"] _ "versions" [] "validation" r vs ltac:(discriminate) H3) as Hf.
    simpl app in Hf. rewrite Hf. apply (rdel_get "validation" ["spec"] r (start doc) m); auto. apply unique_start, U.
  Qed.

  Lemma patched_versions doc doc' : set_versioned doc = Done doc' -> exists vs l, get_node doc ["spec"; "versions"] = Some (Some vs) /\
    n_kind vs = Sequence /\ get_node doc' ["spec"; "versions"] = Some (Some (set_content vs l)) /\
    Forall2 (fun v v' => patch_version v = Done v') (n_content vs) l.
  Proof.
    intros H. destruct (set_versioned_inv doc doc' H) as (m & vs & l & H1 & H2 & H3 & H4 & H5 & E).
    exists vs, l. split.
    - rewrite get_rget. rewrite <- H3. symmetry. apply (rdel_frame "validation" ["spec"] (start doc) ["spec"] "versions" [] m); auto.
      left. split; [reflexivity|discriminate].
    - split; [exact H4|]. split; [|apply patch_versions_inv, H5]. rewrite get_rget, (patched_start doc doc' m vs l H1 E H3).
      apply (redit_get (fun n => set_content n l) _ _ vs H3).
  Qed.

  (** One version. *)
  Lemma set_get root val path root' q : paired root -> path <> [] -> set_node root val path = Some root' -> get_node root' (path ++ q) = rget val q.
  Proof.
    intros P Hp. rewrite set_rset. destruct (rget (start root) path) as [r|] eqn:E; [|discriminate]. intros [= <-].
    rewrite get_rget. destruct path as [|k path]; [congruence|]. pose proof (rget_kind _ _ _ _ E) as Hk.
    rewrite start_restart by (left; rewrite rset_kind by discriminate; congruence). eapply rget_rset_ext; [apply paired_start, P|exact E].
  Qed.
  Lemma set_frame root val path root' q : paired root -> diverge path q -> set_node root val path = Some root' -> get_node root' q = get_node root q.
  Proof.
    intros P (c & a & b & p' & q' & -> & -> & Hab). rewrite set_rset. destruct (rget (start root) (c ++ a :: p')) as [r|] eqn:E; [|discriminate]. intros [= <-].
    rewrite !get_rget. assert (Hk : n_kind (start root) = Mapping) by (destruct c; simpl in E; eapply rget_kind; exact E).
    rewrite start_restart by (left; rewrite rset_kind by (destruct c; discriminate); congruence).
    eapply rset_frame; eauto. apply paired_start, P.
  Qed.
  Lemma delete_get root path key root' q : unique_keys root -> delete_node root (path ++ [key]) = Some root' -> get_node root' (path ++ key :: q) = Some None.
  Proof.
    intros U. rewrite delete_rdel. destruct (rget (start root) path) as [[m|]|] eqn:E; try discriminate.
    - destruct (is_mapping m) eqn:Em; [|discriminate]. intros [= <-]. rewrite get_rget. rewrite start_restart; [eapply rdel_get; eauto; apply unique_start, U|].
      left. rewrite rdel_redit. destruct path as [|k path]; [simpl in E; injection E as E; rewrite E; simpl; apply is_mapping_eq in Em; congruence|].
      rewrite redit_kind by discriminate. rewrite (rget_kind _ _ _ _ E). discriminate.
    - intros [= <-]. rewrite get_rget. destruct (rget_cases _ _ _ E) as (done & rest & m & -> & H1 & H2). destruct rest as [|k rest]; [rewrite app_nil_r in E; congruence|].
      rewrite <- app_assoc. rewrite (rget_app _ _ _ _ H1). simpl. destruct H2 as [-> ->]. reflexivity.
  Qed.
  Lemma delete_frame root path root' q : diverge path q -> delete_node root path = Some root' -> get_node root' q = get_node root q.
  Proof.
    intros (c & a & b & p' & q' & -> & -> & Hab).
    destruct (rev (a :: p')) as [|key rp] eqn:Er; [exfalso; apply (f_equal (@List.length string)) in Er; rewrite rev_length in Er; discriminate|].
    assert (Ea : a :: p' = rev rp ++ [key]) by (rewrite <- (rev_involutive (a :: p')), Er; reflexivity). rewrite Ea, app_assoc, delete_rdel.
    destruct (rget (start root) (c ++ rev rp)) as [[m|]|] eqn:E; try discriminate; [|intros [= <-]; reflexivity].
    destruct (is_mapping m) eqn:Em; [|discriminate]. intros [= <-]. rewrite !get_rget. rewrite start_restart.
    - apply (rdel_frame key c (start root) (c ++ rev rp) b q' m); auto. destruct (rev rp) as [|x r] eqn:Err; simpl in Ea; injection Ea as -> ->.
      + left. rewrite app_nil_r. auto.
      + right. exists x, r. auto.
    - left. rewrite rdel_redit. destruct (c ++ rev rp) as [|k path]; [simpl in E; injection E as E; rewrite E; simpl; apply is_mapping_eq in Em; congruence|].
      rewrite redit_kind by discriminate. rewrite (rget_kind _ _ _ _ E). discriminate.
  Qed.

  Lemma version_result v v' : paired v -> unique_keys v -> patch_version v = Done v' -> exists name,
    get_node v ["name"] = Some (Some name) /\
    (forall b q, b <> "schema" -> get_node v' (b :: q) = get_node v (b :: q)) /\
    match mget String.eqb new (n_value name) with
    | Some s => exists y, to_yaml s = Some y /\ get_node v' ["schema"; "openAPIV3Schema"] = Some (Some (set_style 0 y)) /\
                  forall b q, b <> "openAPIV3Schema" -> get_node v' ("schema" :: b :: q) = get_node v ("schema" :: b :: q)
    | None => get_node v' ["schema"] = Some None
    end.
  Proof.
    intros P U H. destruct (patch_version_inv v v' H) as (name & G1 & G2 & _ & _ & G3). exists name. split; [exact G1|].
    destruct (mget String.eqb new (n_value name)) as [s|].
    - destruct G3 as (y & Y1 & Y2). split.
      + intros b q Hb. eapply set_frame; [exact P| |exact Y2]. exists [], "schema", b, ["openAPIV3Schema"], q. auto.
      + exists y. split; [exact Y1|]. split.
        * change ["schema"; "openAPIV3Schema"] with (["schema"; "openAPIV3Schema"] ++ []). eapply set_get in Y2; [|exact P|discriminate]. exact Y2.
        * intros b q Hb. eapply set_frame; [exact P| |exact Y2]. exists ["schema"], "openAPIV3Schema", b, [], q. auto.
    - split.
      + intros b q Hb. eapply delete_frame; [|exact G3]. exists [], "schema", b, [], q. auto.
      + exact (delete_get v [] "schema" v' [] U G3).
  Qed.

  (** ** Patching twice *)
  Lemma set_again root val path root' : paired root -> path <> [] -> set_node root val path = Some root' -> set_node root' val path = Some root'.
  Proof.
    intros P Hp H. pose proof (set_get root val path root' [] P Hp H) as G. rewrite app_nil_r, get_rget in G. simpl in G.
    rewrite set_rset, G. f_equal. apply restart_id. apply rset_same, G.
  Qed.
  Lemma delete_absent root path key : (exists m, rget (start root) path = Some (Some m) /\ is_mapping m = true) -> rget (start root) (path ++ [key]) = Some None ->
    delete_node root (path ++ [key]) = Some root.
  Proof.
    intros (m & H1 & H2) H. rewrite delete_rdel, H1, H2. f_equal. apply restart_id. rewrite rdel_redit.
    apply (redit_id _ _ _ m H1). rewrite (rget_app _ _ _ _ H1) in H. simpl in H. rewrite H2 in H. simpl in H.
    destruct (find_key key (n_content m)) eqn:F; [discriminate|]. rewrite remove_key_absent by exact F. destruct m; reflexivity.
  Qed.

  Lemma patch_version_again v v' : paired v -> unique_keys v -> patch_version v = Done v' -> patch_version v' = Done v'.
  Proof.
    intros P U H. destruct (version_result v v' P U H) as (name & G1 & G2 & G3). destruct (patch_version_inv v v' H) as (name' & N1 & N2 & N3 & N4 & N5).
    assert (name' = name) by congruence. subst name'. unfold YamlModel.patch_version. rewrite (G2 "name" [] ltac:(discriminate)), G1, N3, N4. simpl.
    apply String.eqb_neq in N2. rewrite N2. destruct (mget String.eqb new (n_value name)) as [s|].
    - destruct N5 as (y & Y1 & Y2). rewrite Y1. rewrite (set_again v _ ["schema"; "openAPIV3Schema"] v' P ltac:(discriminate) Y2). reflexivity.
    - assert (Hm : exists m, rget (start v') [] = Some (Some m) /\ is_mapping m = true).
      { exists (start v'). split; [reflexivity|]. rewrite get_rget in G3. simpl in G3. destruct (is_mapping (start v')); [reflexivity|discriminate]. }
      rewrite get_rget in G3. pose proof (delete_absent v' [] "schema" Hm G3) as E. simpl app in E. rewrite E. reflexivity.
  Qed.

  Lemma set_versioned_again doc doc' : paired doc -> unique_keys doc -> set_versioned doc = Done doc' -> set_versioned doc' = Done doc'.
  Proof.
    intros P U H. destruct (set_versioned_inv doc doc' H) as (m & vs & l & H1 & H2 & H3 & H4 & H5 & E).
    assert (Hsp : exists m', rget (start doc') ["spec"] = Some (Some m') /\ is_mapping m' = true).
    { pose proof (patched_validation doc doc' [] U H) as Hv. rewrite get_rget in Hv. simpl in Hv. destruct (is_mapping (start doc')) eqn:Em; [|discriminate]. simpl in Hv.
      destruct (find_key "spec" (n_content (start doc'))) as [m'|] eqn:F.
      - exists m'. simpl. rewrite Em, F. simpl. split; [reflexivity|]. destruct (is_mapping m'); [reflexivity|discriminate].
      - exfalso. destruct (patched_versions doc doc' H) as (vs' & l' & _ & _ & G & _). rewrite get_rget in G. simpl in G. rewrite Em, F in G. discriminate. }
    assert (Ed : delete_node doc' (["spec"] ++ ["validation"]) = Some doc').
    { apply delete_absent; [exact Hsp|]. pose proof (patched_validation doc doc' [] U H) as Hv. rewrite get_rget in Hv. exact Hv. }
    destruct (patched_versions doc doc' H) as (vs' & l' & G1 & G2 & G3 & G4).
    unfold YamlModel.set_versioned. simpl app in Ed. rewrite Ed. unfold get_pos.
    pose proof (as_close_spec doc' ["spec"; "versions"]) as Ha. rewrite get_rget in G3. destruct (as_close doc' ["spec"; "versions"]) as [[q rest]|]; [|congruence].
    destruct Ha as (done & w & E1 & A1 & A2 & A3 & A4). destruct rest as [|k rest].
    2:{ exfalso. rewrite E1 in G3. rewrite (rget_app _ _ _ _ A2) in G3. simpl in G3. destruct A4 as [A4 A5]; rewrite A4 in G3; simpl in G3; rewrite A5 in G3; discriminate. }
    rewrite app_nil_r in E1. subst done. assert (w = set_content vs' l') by congruence. subst w. rewrite A1. simpl n_kind. rewrite G2. simpl negb. cbv iota.
    assert (Pu : forall v, In v (n_content vs') -> paired v /\ unique_keys v).
    { intros v Hv. rewrite get_rget in G1. split.
      - eapply paired_child; [|exact Hv]. eapply redit_paired_get; [|exact G1]. apply paired_start, P.
      - eapply unique_child; [|exact Hv]. eapply unique_get; [|exact G1]. apply unique_start, U. }
    assert (Hl : patch_versions l' = Done l').
    { apply patch_versions_done. clear -G4 Pu. induction G4 as [|v v' vs l Hv Hl IH]; [constructor|]. constructor.
      - destruct (Pu v (or_introl eq_refl)). eapply patch_version_again; eauto.
      - apply IH. intros; apply Pu; right; assumption. }
    simpl n_content. rewrite Hl. f_equal. rewrite A3. apply restart_id. apply (redit_id _ _ _ (set_content vs' l')); [exact A2|reflexivity].
  Qed.

  (** ** No panic *)
  Lemma patch_versions_no_panic vs : (forall v, In v vs -> exists name, get_node v ["name"] = Some (Some name)) -> patch_versions vs <> Panics.
  Proof.
    induction vs as [|v vs IH]; intros H; simpl; [discriminate|]. destruct (H v (or_introl eq_refl)) as [name E].
    assert (Hp : patch_version v <> Panics).
    { unfold YamlModel.patch_version. rewrite E. destruct (negb (ykind_eqb (n_kind name) Scalar) || negb (String.eqb (short_tag name) "!!str")); [discriminate|].
      destruct (String.eqb (n_value name) ""); [discriminate|]. destruct (mget String.eqb new (n_value name)) as [s|].
      - destruct (to_yaml s) as [y|]; [|discriminate]. destruct (set_node v (set_style 0 y) ["schema"; "openAPIV3Schema"]); discriminate.
      - destruct (delete_node v ["schema"]); discriminate. }
    destruct (patch_version v); try discriminate; [|congruence]. specialize (IH (fun x Hx => H x (or_intror Hx))).
    destruct (patch_versions vs); congruence.
  Qed.
  Lemma set_versioned_no_panic doc : (forall vs, get_node doc ["spec"; "versions"] = Some (Some vs) -> forall v, In v (n_content vs) -> exists name, get_node v ["name"] = Some (Some name)) ->
    set_versioned doc <> Panics.
  Proof.
    intros Hv. unfold YamlModel.set_versioned. change ["spec"; "validation"] with (["spec"] ++ ["validation"]). rewrite delete_rdel.
    destruct (rget (start doc) ["spec"]) as [[m|]|] eqn:Es; try discriminate.
    - destruct (is_mapping m) eqn:Em; [|discriminate]. set (f := rdel ["spec"] "validation").
      assert (Hk : n_kind (start doc) = Mapping) by (eapply rget_kind; exact Es).
      assert (Est : start (restart doc f) = f (start doc)).
      { apply start_restart. left. unfold f. rewrite rdel_redit, redit_kind by discriminate. congruence. }
      unfold get_pos. pose proof (as_close_spec (restart doc f) ["spec"; "versions"]) as H.
      destruct (as_close (restart doc f) ["spec"; "versions"]) as [[q [|k rest]]|]; try discriminate.
      destruct H as (done & vs & E & H1 & H2 & H3 & _). rewrite app_nil_r in E. subst done. rewrite H1.
      destruct (ykind_eqb (n_kind vs) Sequence); [|discriminate]. simpl negb. cbv iota.
      pose proof (patch_versions_no_panic (n_content vs)) as Hn. destruct (patch_versions (n_content vs)); try discriminate. exfalso. apply Hn; [|reflexivity].
      apply Hv. rewrite get_rget. rewrite Est in H2. rewrite <- H2. symmetry.
      apply (rdel_frame "validation" ["spec"] (start doc) ["spec"] "versions" [] m); auto. left. split; [reflexivity|discriminate].
    - unfold get_pos. pose proof (as_close_spec doc ["spec"; "versions"]) as H. destruct (as_close doc ["spec"; "versions"]) as [[q [|k rest]]|]; try discriminate.
      destruct H as (done & vs & E & H1 & H2 & H3 & _). rewrite H1. destruct (ykind_eqb (n_kind vs) Sequence); [|discriminate]. simpl negb. cbv iota.
      pose proof (patch_versions_no_panic (n_content vs)) as Hn. destruct (patch_versions (n_content vs)); try discriminate. exfalso. apply Hn; [|reflexivity].
      rewrite app_nil_r in E. subst done. apply Hv. rewrite get_rget. exact H2.
  Qed.
End Patch.
