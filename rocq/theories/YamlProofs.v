(** * Lemmas about the YAML operations. *)

From Coq Require Import List String Bool Arith Lia.
From Verif Require Import GoLib GoLibFacts YamlModel YamlSpec.
Import ListNotations.
Open Scope string_scope.
Open Scope list_scope.

Lemma pair_ind (A : Type) (P : list A -> Prop) : P [] -> (forall x, P [x]) -> (forall x y l, P l -> P (x :: y :: l)) -> forall l, P l.
Proof.
  intros H0 H1 H2. assert (H : forall l, P l /\ forall x, P (x :: l)).
  { induction l as [|y l [IH1 IH2]]; [auto|]. split; [apply IH2|]. intros x. apply H2, IH1. }
  intros l. apply H.
Qed.

Lemma kind_eqb_eq a b : ykind_eqb a b = true <-> a = b.
Proof. destruct a, b; simpl; split; congruence. Qed.
Lemma is_mapping_eq n : is_mapping n = true <-> n_kind n = Mapping.
Proof. apply kind_eqb_eq. Qed.

(** ** The operations by recursion on the path *)
Fixpoint find_key (k : string) (c : list node) : option node :=
  match c with
  | kn :: v :: c' => if String.eqb (n_value kn) k then Some v else find_key k c'
  | _ => None
  end.
Fixpoint upd_key (k : string) (f : node -> node) (c : list node) : list node :=
  match c with
  | kn :: v :: c' => if String.eqb (n_value kn) k then kn :: f v :: c' else kn :: v :: upd_key k f c'
  | _ => c
  end.
Fixpoint rget (cur : node) (path : list string) {struct path} : option (option node) :=
  match path with
  | [] => Some (Some cur)
  | k :: rest =>
      if negb (is_mapping cur) then None
      else match find_key k (n_content cur) with None => Some None | Some v => rget v rest end
  end.
Fixpoint redit (path : list string) (f : node -> node) (cur : node) {struct path} : node :=
  match path with
  | [] => f cur
  | k :: rest => set_content cur (upd_key k (redit rest f) (n_content cur))
  end.

Lemma value_in_spec k c : forall i,
  match value_in i c k with
  | None => find_key k c = None
  | Some (j, v) => find_key k c = Some v /\ exists d, j = i + d /\ nth_error c d = Some v /\ forall f, nth_update d f c = upd_key k f c
  end.
Proof.
  induction c as [|x|kn v c IH] using pair_ind; intros i; simpl; auto.
  destruct (String.eqb (n_value kn) k) eqn:E.
  - split; [reflexivity|]. exists 1. split; [lia|]. split; reflexivity.
  - specialize (IH (S (S i))). destruct (value_in (S (S i)) c k) as [[j w]|]; [|exact IH].
    destruct IH as (F & d & -> & N & U). split; [exact F|]. exists (S (S d)). split; [lia|]. split; [exact N|].
    intros f. simpl. rewrite U. reflexivity.
Qed.

Lemma upd_key_ext k v f g c : find_key k c = Some v -> f v = g v -> upd_key k f c = upd_key k g c.
Proof.
  intros F E. induction c as [|x|kn w c IH] using pair_ind; simpl in *; auto.
  destruct (String.eqb (n_value kn) k); [injection F as ->; rewrite E; reflexivity|rewrite (IH F); reflexivity].
Qed.
Lemma find_upd_same k f c v : find_key k c = Some v -> find_key k (upd_key k f c) = Some (f v).
Proof.
  intros F. induction c as [|x|kn w c IH] using pair_ind; simpl in *; try discriminate.
  destruct (String.eqb (n_value kn) k) eqn:E; simpl; rewrite E; [congruence|apply IH, F].
Qed.
Lemma find_upd_other k k' f c : k' <> k -> find_key k' (upd_key k f c) = find_key k' c.
Proof.
  intros Hn. induction c as [|x|kn w c IH] using pair_ind; simpl; auto.
  destruct (String.eqb (n_value kn) k) eqn:E; simpl.
  - apply String.eqb_eq in E. destruct (String.eqb (n_value kn) k') eqn:E'; [apply String.eqb_eq in E'; congruence|reflexivity].
  - rewrite IH. reflexivity.
Qed.
Lemma upd_key_id k f c v : find_key k c = Some v -> f v = v -> upd_key k f c = c.
Proof.
  intros F E. induction c as [|x|kn w c IH] using pair_ind; simpl in *; auto.
  destruct (String.eqb (n_value kn) k); [injection F as ->; rewrite E; reflexivity|rewrite (IH F); reflexivity].
Qed.
Lemma find_app k c l : Nat.even (List.length c) = true -> find_key k (c ++ l) = match find_key k c with Some v => Some v | None => find_key k l end.
Proof.
  induction c as [|x|kn w c IH] using pair_ind; simpl; intros E; try discriminate; auto.
  destruct (String.eqb (n_value kn) k); auto.
Qed.

Lemma descend_spec path : forall cur pos,
  match descend cur pos path with
  | None => rget cur path = None
  | Some (q, rest) => exists p done m, path = done ++ rest /\ q = pos ++ p /\ node_at p cur = Some m /\ rget cur done = Some (Some m) /\
      (forall f, update_at p f cur = redit done f cur) /\
      match rest with [] => True | k :: _ => is_mapping m = true /\ find_key k (n_content m) = None end
  end.
Proof.
  induction path as [|k rest IH]; intros cur pos; simpl.
  - exists [], [], cur. split; [reflexivity|]. split; [symmetry; apply app_nil_r|]. auto.
  - destruct (is_mapping cur) eqn:Em; simpl; [|reflexivity].
    pose proof (value_in_spec k (n_content cur) 0) as H. destruct (value_in 0 (n_content cur) k) as [[j v]|].
    + destruct H as (F & d & -> & N & U). simpl. rewrite F. specialize (IH v (pos ++ [d])).
      destruct (descend v (pos ++ [d]) rest) as [[q rest']|]; [|exact IH].
      destruct IH as (p & done & m & E1 & E2 & E3 & E4 & E5 & E6). exists (d :: p), (k :: done), m.
      split; [simpl; congruence|]. split; [rewrite E2, <- app_assoc; reflexivity|]. split; [simpl; rewrite N; exact E3|].
      split; [simpl; rewrite Em, F; exact E4|]. split; [|exact E6]. intros f. simpl. rewrite U. f_equal.
      apply (upd_key_ext k v); [exact F|apply E5].
    + exists [], [], cur. split; [reflexivity|]. split; [symmetry; apply app_nil_r|]. simpl. auto 10.
Qed.

(** ** Documents *)
Definition start (root : node) : node := match n_kind root, n_content root with Document, c :: _ => c | _, _ => root end.
Definition restart (root : node) (f : node -> node) : node :=
  match n_kind root, n_content root with Document, c :: cs => Node Document (n_head root) (f c :: cs) | _, _ => f root end.

Lemma rget_app cur done : forall m rest, rget cur done = Some (Some m) -> rget cur (done ++ rest) = rget m rest.
Proof.
  revert cur. induction done as [|k done IH]; intros cur m rest; simpl; [intros [= ->]; reflexivity|].
  destruct (is_mapping cur); [|discriminate]. simpl. destruct (find_key k (n_content cur)) as [v|]; [|discriminate]. apply IH.
Qed.

Lemma as_close_spec root path :
  match as_close root path with
  | None => rget (start root) path = None
  | Some (q, rest) => exists done m, path = done ++ rest /\ node_at q root = Some m /\ rget (start root) done = Some (Some m) /\
      (forall f, update_at q f root = restart root (redit done f)) /\
      match rest with [] => True | k :: _ => is_mapping m = true /\ find_key k (n_content m) = None end
  end.
Proof.
  unfold as_close, start, restart. destruct root as [kd h c]. simpl.
  destruct kd; try (pose proof (descend_spec path (Node _ h c) []) as H; destruct (descend _ [] path) as [[q rest]|];
    [destruct H as (p & done & m & -> & -> & H); simpl in *; exists done, m; auto|exact H]; fail).
  - destruct c as [|c cs].
    + pose proof (descend_spec path (Node Document h []) []) as H. destruct (descend _ [] path) as [[q rest]|];
      [destruct H as (p & done & m & -> & -> & H); simpl in *; exists done, m; auto|exact H].
    + pose proof (descend_spec path c [0]) as H. destruct (descend c [0] path) as [[q rest]|]; [|exact H].
      destruct H as (p & done & m & -> & -> & H1 & H2 & H3 & H4). exists done, m. simpl. split; [reflexivity|]. split; [exact H1|].
      split; [exact H2|]. split; [|exact H4]. intros f. unfold set_content. simpl. rewrite H3. reflexivity.
  - pose proof (descend_spec path (Node Sequence h c) []) as H; destruct (descend _ [] path) as [[q rest]|];
    [destruct H as (p & done & m & -> & -> & H); simpl in *; exists done, m; auto|exact H].
  - pose proof (descend_spec path (Node Mapping h c) []) as H; destruct (descend _ [] path) as [[q rest]|];
    [destruct H as (p & done & m & -> & -> & H); simpl in *; exists done, m; auto|exact H].
  - pose proof (descend_spec path (Node Scalar h c) []) as H; destruct (descend _ [] path) as [[q rest]|];
    [destruct H as (p & done & m & -> & -> & H); simpl in *; exists done, m; auto|exact H].
  - pose proof (descend_spec path (Node Alias h c) []) as H; destruct (descend _ [] path) as [[q rest]|];
    [destruct H as (p & done & m & -> & -> & H); simpl in *; exists done, m; auto|exact H].
Qed.

Lemma get_rget root path : get_node root path = rget (start root) path.
Proof.
  unfold get_node, get_pos. pose proof (as_close_spec root path) as H. destruct (as_close root path) as [[q rest]|]; [|symmetry; exact H].
  destruct H as (done & m & -> & H1 & H2 & _ & H3). destruct rest as [|k rest].
  - rewrite app_nil_r, H2, H1. reflexivity.
  - rewrite (rget_app _ _ _ _ H2). simpl. destruct H3 as [-> ->]. reflexivity.
Qed.

Fixpoint rset (val : node) (path : list string) (cur : node) {struct path} : node :=
  match path with
  | [] => val
  | k :: rest =>
      match find_key k (n_content cur) with
      | Some _ => set_content cur (upd_key k (rset val rest) (n_content cur))
      | None => set_content cur (n_content cur ++ [key_node k; nested rest val])
      end
  end.
Lemma rset_edit val done : forall cur m rest, rget cur done = Some (Some m) -> rset val (done ++ rest) cur = redit done (rset val rest) cur.
Proof.
  induction done as [|k done IH]; intros cur m rest; simpl; [reflexivity|]. destruct (is_mapping cur); [|discriminate]. simpl.
  destruct (find_key k (n_content cur)) as [v|] eqn:F; [|discriminate]. intros H. f_equal. apply (upd_key_ext k v); [exact F|]. apply (IH v m rest H).
Qed.
Lemma redit_ext path f g : forall cur m, rget cur path = Some (Some m) -> f m = g m -> redit path f cur = redit path g cur.
Proof.
  induction path as [|k path IH]; intros cur m; simpl; [intros [= ->]; auto|]. destruct (is_mapping cur); [|discriminate]. simpl.
  destruct (find_key k (n_content cur)) as [v|] eqn:F; [|discriminate]. intros H E. f_equal. apply (upd_key_ext k v); [exact F|]. apply (IH v m H E).
Qed.
Lemma restart_ext root f g : f (start root) = g (start root) -> restart root f = restart root g.
Proof. unfold start, restart. destruct root as [[] h [|c cs]]; simpl; intros E; rewrite ?E; auto. Qed.

Lemma set_rset root val path : set_node root val path = match rget (start root) path with None => None | Some _ => Some (restart root (rset val path)) end.
Proof.
  unfold set_node. pose proof (as_close_spec root path) as H. destruct (as_close root path) as [[q rest]|]; [|rewrite H; reflexivity].
  destruct H as (done & m & -> & H1 & H2 & H3 & H4). rewrite (rget_app _ _ _ _ H2). destruct rest as [|k rest].
  - simpl. rewrite H3. f_equal. apply restart_ext. rewrite (rset_edit val done _ m [] H2). simpl. reflexivity.
  - rewrite H1. destruct H4 as [H4 H5]. rewrite H4. simpl. rewrite H4, H5. simpl. f_equal. rewrite H3. apply restart_ext.
    rewrite (rset_edit val done _ m (k :: rest) H2). apply (redit_ext done _ _ _ m H2). simpl. rewrite H5. reflexivity.
Qed.

Fixpoint rdel (path : list string) (key : string) (cur : node) {struct path} : node :=
  match path with
  | [] => set_content cur (remove_key (n_content cur) key)
  | k :: rest => set_content cur (upd_key k (rdel rest key) (n_content cur))
  end.
Lemma rdel_redit path key cur : rdel path key cur = redit path (fun n => set_content n (remove_key (n_content n) key)) cur.
Proof.
  revert cur. induction path as [|k path IH]; intros cur; simpl; [reflexivity|]. f_equal.
  destruct (find_key k (n_content cur)) as [v|] eqn:F; [apply (upd_key_ext k v); [exact F|apply IH]|].
  clear -F. induction (n_content cur) as [|x|kn w c IH] using pair_ind; simpl in *; auto.
  destruct (String.eqb (n_value kn) k); [discriminate|rewrite (IH F); reflexivity].
Qed.
Lemma delete_rdel root path key : delete_node root (path ++ [key]) =
  match rget (start root) path with
  | None => None
  | Some None => Some root
  | Some (Some m) => if is_mapping m then Some (restart root (rdel path key)) else None
  end.
Proof.
  unfold delete_node. rewrite rev_app_distr. simpl. rewrite rev_involutive.
  pose proof (as_close_spec root path) as H. destruct (as_close root path) as [[q rest]|]; [|rewrite H; reflexivity].
  destruct H as (done & m & -> & H1 & H2 & H3 & H4). destruct rest as [|k rest].
  - rewrite app_nil_r, H2, H1. destruct (is_mapping m); simpl; [|reflexivity]. rewrite H3. f_equal. apply restart_ext. symmetry. apply rdel_redit.
  - rewrite (rget_app _ _ _ _ H2). simpl. destruct H4 as [-> ->]. reflexivity.
Qed.

(** ** Laws *)
Lemma start_restart root f : n_kind (f (start root)) <> Document \/ (n_kind root = Document /\ n_content root <> []) -> start (restart root f) = f (start root).
Proof.
  unfold start, restart. destruct root as [[] h [|c cs]]; simpl; intros [H|[H H']]; try reflexivity; try congruence;
    match goal with |- match n_kind ?x with _ => _ end = _ => destruct (n_kind x); try reflexivity; congruence end.
Qed.
Lemma kind_set_content n c : n_kind (set_content n c) = n_kind n.
Proof. reflexivity. Qed.
Lemma rset_kind val path cur : path <> [] -> n_kind (rset val path cur) = n_kind cur.
Proof. destruct path as [|k path]; [congruence|]. intros _. simpl. destruct (find_key k (n_content cur)); reflexivity. Qed.
Lemma rget_kind cur k path r : rget cur (k :: path) = Some r -> n_kind cur = Mapping.
Proof. simpl. destruct (is_mapping cur) eqn:E; [|discriminate]. intros _. apply is_mapping_eq, E. Qed.

Lemma paired_root n : paired n -> n_kind n = Mapping -> Nat.even (List.length (n_content n)) = true.
Proof. intros H. apply H. destruct n. left. reflexivity. Qed.
Lemma nodes_eq n : nodes n = n :: flat_map nodes (n_content n).
Proof. destruct n. reflexivity. Qed.
Lemma nodes_child n c x : In c (n_content n) -> In x (nodes c) -> In x (nodes n).
Proof. intros H Hx. rewrite nodes_eq. right. apply in_flat_map. exists c. auto. Qed.
Lemma paired_child n c : paired n -> In c (n_content n) -> paired c.
Proof. intros H Hc x Hx. apply H. eapply nodes_child; eauto. Qed.
Lemma find_in k c v : find_key k c = Some v -> In v c.
Proof.
  induction c as [|x|kn w c IH] using pair_ind; simpl; try discriminate. destruct (String.eqb (n_value kn) k); [intros [= ->]; auto|auto].
Qed.
Lemma paired_start root : paired root -> paired (start root).
Proof. unfold start. destruct root as [[] h [|c cs]]; simpl; auto. intros H. eapply paired_child; [exact H|left; reflexivity]. Qed.

Lemma nested_get val rest : n_kind (nested rest val) = n_kind (nested rest val) -> rget (nested rest val) rest = Some (Some val).
Proof. intros _. induction rest as [|k rest IH]; simpl; [reflexivity|]. rewrite String.eqb_refl. exact IH. Qed.
Lemma rget_rset val path : forall cur r, paired cur -> rget cur path = Some r -> rget (rset val path cur) path = Some (Some val).
Proof.
  induction path as [|k path IH]; intros cur r P; simpl; [reflexivity|].
  destruct (is_mapping cur) eqn:Em; [|discriminate]. simpl. destruct (find_key k (n_content cur)) as [v|] eqn:F.
  - intros H. change (is_mapping (set_content cur (upd_key k (rset val path) (n_content cur)))) with (is_mapping cur). rewrite Em.
    cbn [negb set_content n_content]. rewrite (find_upd_same k _ _ v F). apply (IH v r); [|exact H]. eapply paired_child; [exact P|eapply find_in; eauto].
  - intros _. change (is_mapping (set_content cur (n_content cur ++ [key_node k; nested path val]))) with (is_mapping cur). rewrite Em.
    cbn [negb set_content n_content]. rewrite find_app, F by (apply paired_root; [exact P|apply is_mapping_eq, Em]).
    simpl. rewrite String.eqb_refl. apply nested_get. reflexivity.
Qed.
Lemma rget_rset_ext val path q : forall cur r, paired cur -> rget cur path = Some r -> rget (rset val path cur) (path ++ q) = rget val q.
Proof. intros cur r P H. apply rget_app. eapply rget_rset; eauto. Qed.

Lemma nested_frame val c : forall a p' b q', a <> b -> rget (nested (c ++ a :: p') val) (c ++ b :: q') = Some None.
Proof.
  induction c as [|k c IH]; intros a p' b q' H; simpl.
  - change (n_value (key_node a)) with a. destruct (String.eqb a b) eqn:E; [apply String.eqb_eq in E; congruence|]. reflexivity.
  - rewrite String.eqb_refl. apply IH, H.
Qed.
Lemma rset_frame val c : forall cur a p' b q' r, paired cur -> a <> b -> rget cur (c ++ a :: p') = Some r ->
  rget (rset val (c ++ a :: p') cur) (c ++ b :: q') = rget cur (c ++ b :: q').
Proof.
  induction c as [|k c IH]; intros cur a p' b q' r P Hab; cbn [app].
  - intros H. pose proof (rget_kind _ _ _ _ H) as Hk. apply is_mapping_eq in Hk. cbn [rget rset] in *. rewrite Hk in *. cbn [negb] in *.
    destruct (find_key a (n_content cur)) as [v|] eqn:F.
    + change (is_mapping (set_content cur (upd_key a (rset val p') (n_content cur)))) with (is_mapping cur). rewrite Hk. cbn [negb set_content n_content].
      rewrite find_upd_other by congruence. reflexivity.
    + change (is_mapping (set_content cur (n_content cur ++ [key_node a; nested p' val]))) with (is_mapping cur). rewrite Hk. cbn [negb set_content n_content].
      rewrite find_app by (apply paired_root; [exact P|apply is_mapping_eq, Hk]). simpl.
      change (n_value (key_node a)) with a. destruct (String.eqb a b) eqn:E; [apply String.eqb_eq in E; congruence|]. destruct (find_key b (n_content cur)); reflexivity.
  - intros H. pose proof (rget_kind _ _ _ _ H) as Hk. apply is_mapping_eq in Hk. cbn [rget rset] in *. rewrite Hk in *. cbn [negb] in *.
    destruct (find_key k (n_content cur)) as [v|] eqn:F.
    + change (is_mapping (set_content cur (upd_key k (rset val (c ++ a :: p')) (n_content cur)))) with (is_mapping cur). rewrite Hk. cbn [negb set_content n_content].
      rewrite (find_upd_same k _ _ v F). apply (IH v a p' b q' r); auto. eapply paired_child; [exact P|eapply find_in; eauto].
    + change (is_mapping (set_content cur (n_content cur ++ [key_node k; nested (c ++ a :: p') val]))) with (is_mapping cur). rewrite Hk. cbn [negb set_content n_content].
      rewrite find_app, F by (apply paired_root; [exact P|apply is_mapping_eq, Hk]). simpl. rewrite String.eqb_refl. apply nested_frame, Hab.
Qed.

Lemma rset_same val path : forall cur, rget cur path = Some (Some val) -> rset val path cur = cur.
Proof.
  induction path as [|k path IH]; intros cur; simpl; [intros [= ->]; reflexivity|].
  destruct (is_mapping cur); [|discriminate]. simpl. destruct (find_key k (n_content cur)) as [v|] eqn:F; [|discriminate].
  intros H. rewrite (upd_key_id k _ _ v F (IH v H)). destruct cur; reflexivity.
Qed.

(** ** Deleting *)
Lemma find_remove_other k k' c : k' <> k -> find_key k' (remove_key c k) = find_key k' c.
Proof.
  intros Hn. induction c as [|x|kn w c IH] using pair_ind; simpl; auto. destruct (String.eqb (n_value kn) k) eqn:E; simpl.
  - apply String.eqb_eq in E. destruct (String.eqb (n_value kn) k') eqn:E'; [apply String.eqb_eq in E'; congruence|reflexivity].
  - rewrite IH. reflexivity.
Qed.
Lemma find_none k c : ~ In k (pair_keys c) -> find_key k c = None.
Proof.
  induction c as [|x|kn w c IH] using pair_ind; simpl; auto. intros H. destruct (String.eqb (n_value kn) k) eqn:E; [apply String.eqb_eq in E; tauto|auto].
Qed.
Lemma find_remove_same k c : NoDup (pair_keys c) -> find_key k (remove_key c k) = None.
Proof.
  induction c as [|x|kn w c IH] using pair_ind; simpl; auto. intros H. inversion H as [|? ? H1 H2]; subst. destruct (String.eqb (n_value kn) k) eqn:E; simpl.
  - apply String.eqb_eq in E. subst k. apply find_none, H1.
  - rewrite E. apply IH, H2.
Qed.
Lemma unique_child n c : unique_keys n -> In c (n_content n) -> unique_keys c.
Proof. intros H Hc x Hx. apply H. eapply nodes_child; eauto. Qed.
Lemma unique_start root : unique_keys root -> unique_keys (start root).
Proof. unfold start. destruct root as [[] h [|c cs]]; simpl; auto. intros H. eapply unique_child; [exact H|left; reflexivity]. Qed.

Lemma rdel_get key path q : forall cur m, unique_keys cur -> rget cur path = Some (Some m) -> is_mapping m = true ->
  rget (rdel path key cur) (path ++ key :: q) = Some None.
Proof.
  induction path as [|k path IH]; intros cur m U; simpl.
  - intros [= ->] Hm. change (is_mapping (set_content m (remove_key (n_content m) key))) with (is_mapping m). rewrite Hm. simpl.
    rewrite find_remove_same; [reflexivity|]. apply U; [rewrite nodes_eq; left; reflexivity|apply is_mapping_eq, Hm].
  - destruct (is_mapping cur) eqn:Em; [|discriminate]. simpl. destruct (find_key k (n_content cur)) as [v|] eqn:F; [|discriminate]. intros H Hm.
    change (is_mapping (set_content cur (upd_key k (rdel path key) (n_content cur)))) with (is_mapping cur). rewrite Em. simpl.
    rewrite (find_upd_same k _ _ v F). apply (IH v m); auto. eapply unique_child; [exact U|eapply find_in; eauto].
Qed.
Lemma rdel_frame key c : forall cur path b q' m, (path = c /\ b <> key) \/ (exists a p', path = c ++ a :: p' /\ a <> b) ->
  rget cur path = Some (Some m) -> is_mapping m = true ->
  rget (rdel path key cur) (c ++ b :: q') = rget cur (c ++ b :: q').
Proof.
  induction c as [|k c IH]; intros cur path b q' m Hp H Hm.
  - destruct Hp as [[-> Hb]|(a & p' & -> & Hab)]; simpl in *.
    + injection H as ->. change (is_mapping (set_content m (remove_key (n_content m) key))) with (is_mapping m). rewrite Hm. simpl.
      rewrite find_remove_other by exact Hb. reflexivity.
    + destruct (is_mapping cur) eqn:Em; [|discriminate]. change (is_mapping (set_content cur (upd_key a (rdel p' key) (n_content cur)))) with (is_mapping cur).
      rewrite Em. simpl. rewrite find_upd_other by congruence. reflexivity.
  - assert (Hp' : exists p2, path = k :: p2 /\ ((p2 = c /\ b <> key) \/ (exists a p', p2 = c ++ a :: p' /\ a <> b))).
    { destruct Hp as [[-> Hb]|(a & p' & -> & Hab)]; simpl; eauto 8. }
    destruct Hp' as (p2 & -> & Hp2). simpl in *. destruct (is_mapping cur) eqn:Em; [|discriminate]. simpl in *.
    destruct (find_key k (n_content cur)) as [v|] eqn:F; [|discriminate].
    change (is_mapping (set_content cur (upd_key k (rdel p2 key) (n_content cur)))) with (is_mapping cur). rewrite Em. simpl.
    rewrite (find_upd_same k _ _ v F). apply (IH v p2 b q' m); auto.
Qed.

(** ** The relations *)
Lemma split_key k c : Nat.even (List.length c) = true ->
  match find_key k c with
  | Some v => exists ps1 kn ps2, c = unpair (ps1 ++ (kn, v) :: ps2) /\ n_value kn = k /\ key_free k ps1 /\
      (forall f, upd_key k f c = unpair (ps1 ++ (kn, f v) :: ps2)) /\ remove_key c k = unpair (ps1 ++ ps2)
  | None => exists ps, c = unpair ps /\ key_free k ps /\ remove_key c k = c
  end.
Proof.
  induction c as [|x|kn w c IH] using pair_ind; simpl; intros E; try discriminate.
  - exists []. split; [reflexivity|]. split; [intros p []|reflexivity].
  - specialize (IH E). destruct (String.eqb (n_value kn) k) eqn:Ek.
    + apply String.eqb_eq in Ek. assert (exists ps2, c = unpair ps2) as [ps2 ->].
      { destruct (find_key k c); [destruct IH as (a & b & d & -> & _)|destruct IH as (a & -> & _)]; eauto. }
      exists [], kn, ps2. repeat split; auto. intros p [].
    + assert (Hn : n_value kn <> k) by (intros H; apply String.eqb_eq in H; congruence).
      destruct (find_key k c) as [v|].
      * destruct IH as (ps1 & kn' & ps2 & -> & H2 & H3 & H4 & H5). exists ((kn, w) :: ps1), kn', ps2. split; [reflexivity|]. split; [exact H2|].
        split; [intros p [<-|Hp]; [exact Hn|apply H3, Hp]|]. split; [intros f; simpl; rewrite H4; reflexivity|]. simpl. rewrite H5. reflexivity.
      * destruct IH as (ps & -> & H2 & H3). exists ((kn, w) :: ps). split; [reflexivity|]. split; [intros p [<-|Hp]; [exact Hn|apply H2, Hp]|].
        simpl. rewrite H3. reflexivity.
Qed.
Lemma mapping_eta n : n_kind n = Mapping -> n = Node Mapping (n_head n) (n_content n).
Proof. destruct n; simpl; intros ->; reflexivity. Qed.
Lemma unpair_app a b : unpair (a ++ b) = unpair a ++ unpair b.
Proof. induction a as [|[k v] a IH]; simpl; [reflexivity|]. rewrite IH. reflexivity. Qed.
Lemma chain_nested val path : chain_to val path (nested path val).
Proof. induction path as [|k path IH]; simpl; [constructor|]. change k with (n_value (key_node k)) at 1. constructor; auto. Qed.

Lemma redit_edit (R : node -> node -> Prop) f path : forall cur m, paired cur -> rget cur path = Some (Some m) -> R m (f m) -> edit R path cur (redit path f cur).
Proof.
  induction path as [|k path IH]; intros cur m P; simpl; [intros [= ->]; constructor; assumption|].
  destruct (is_mapping cur) eqn:Em; [|discriminate]. simpl. apply is_mapping_eq in Em. destruct (find_key k (n_content cur)) as [v|] eqn:F; [|discriminate].
  intros H HR. pose proof (split_key k (n_content cur) (paired_root _ P Em)) as Hs. rewrite F in Hs.
  destruct Hs as (ps1 & kn & ps2 & E1 & E2 & E3 & E4 & _). rewrite E4. unfold set_content. rewrite Em. rewrite (mapping_eta cur Em) at 1. rewrite E1. subst k.
  constructor; [exact E3|]. apply (IH v m); auto. eapply paired_child; [exact P|eapply find_in; eauto].
Qed.
Lemma redit_paired_get cur path m : paired cur -> rget cur path = Some (Some m) -> paired m.
Proof.
  revert cur. induction path as [|k path IH]; intros cur P; simpl; [intros [= ->]; exact P|]. destruct (is_mapping cur); [|discriminate]. simpl.
  destruct (find_key k (n_content cur)) as [v|] eqn:F; [|discriminate]. apply IH. eapply paired_child; [exact P|eapply find_in; eauto].
Qed.

Lemma rget_cases path : forall cur r, rget cur path = Some r -> exists done rest m, path = done ++ rest /\ rget cur done = Some (Some m) /\
  match rest with [] => True | k :: _ => is_mapping m = true /\ find_key k (n_content m) = None end.
Proof.
  induction path as [|k path IH]; intros cur r; simpl; [intros _; exists [], [], cur; auto|].
  destruct (is_mapping cur) eqn:Em; [|discriminate]. simpl. destruct (find_key k (n_content cur)) as [v|] eqn:F.
  - intros H. destruct (IH v r H) as (done & rest & m & -> & H1 & H2). exists (k :: done), rest, m. simpl. rewrite Em, F. auto.
  - intros _. exists [], (k :: path), cur. simpl. auto.
Qed.

Lemma rset_sets val path cur r : paired cur -> rget cur path = Some r -> sets val path cur (rset val path cur).
Proof.
  intros P H. destruct (rget_cases path cur r H) as (done & rest & m & -> & Hd & Hr). rewrite (rset_edit val done cur m rest Hd).
  destruct rest as [|k rest].
  - apply sets_old. rewrite app_nil_r. apply (redit_edit _ _ done cur m P Hd). reflexivity.
  - eapply sets_new; [reflexivity|apply (chain_nested val rest)|]. apply (redit_edit _ _ done cur m P Hd). destruct Hr as [Hm Hf].
    apply is_mapping_eq in Hm. pose proof (redit_paired_get _ _ _ P Hd) as Pm. pose proof (split_key k (n_content m) (paired_root _ Pm Hm)) as Hs.
    rewrite Hf in Hs. destruct Hs as (ps & E1 & E2 & _). exists (n_head m), ps, (key_node k). simpl. rewrite Hf. unfold set_content. rewrite Hm.
    repeat split; auto; [rewrite <- E1; apply mapping_eta, Hm|]. rewrite unpair_app, E1. reflexivity.
Qed.

Lemma in_doc_restart (E : node -> node -> Prop) root f : E (start root) (f (start root)) -> in_doc E root (restart root f).
Proof.
  unfold start, restart. destruct root as [[] h [|c cs]]; simpl; intros H; try (apply in_plain; [simpl; congruence|exact H]). apply in_document, H.
Qed.

Lemma rdel_deletes path key cur m : paired cur -> rget cur path = Some (Some m) -> is_mapping m = true -> deletes (path ++ [key]) cur (rdel path key cur).
Proof.
  intros P H Hm. rewrite rdel_redit. apply is_mapping_eq in Hm. pose proof (redit_paired_get _ _ _ P H) as Pm.
  pose proof (split_key key (n_content m) (paired_root _ Pm Hm)) as Hs. destruct (find_key key (n_content m)) as [v|] eqn:F.
  - destruct Hs as (ps1 & kn & ps2 & E1 & E2 & E3 & _ & E5). eapply del_found; [reflexivity|]. apply (redit_edit _ _ path cur m P H).
    exists (n_head m), ps1, kn, v, ps2. repeat split; auto; [rewrite <- E1; apply mapping_eta, Hm|]. unfold set_content. rewrite Hm, E5. reflexivity.
  - destruct Hs as (ps & E1 & E2 & E3). eapply (del_absent _ path key []); [reflexivity|]. apply (redit_edit _ _ path cur m P H).
    split; [rewrite E3; unfold set_content; destruct m; reflexivity|]. exists (n_head m), ps. split; [rewrite <- E1; apply mapping_eta, Hm|exact E2].
Qed.
Lemma absent_deletes path key cur : paired cur -> rget cur path = Some None -> deletes (path ++ [key]) cur cur.
Proof.
  intros P H. destruct (rget_cases path cur None H) as (done & rest & m & -> & Hd & Hr). destruct rest as [|k rest]; [rewrite app_nil_r in H; congruence|].
  destruct Hr as [Hm Hf]. apply is_mapping_eq in Hm. pose proof (redit_paired_get _ _ _ P Hd) as Pm.
  pose proof (split_key k (n_content m) (paired_root _ Pm Hm)) as Hs. rewrite Hf in Hs. destruct Hs as (ps & E1 & E2 & E3).
  apply (del_absent _ done k (rest ++ [key])); [rewrite <- app_assoc; reflexivity|].
  assert (Hid : redit done (fun x => x) cur = cur).
  { clear -Hd. revert cur Hd. induction done as [|a done IH]; intros cur; simpl; [reflexivity|]. destruct (is_mapping cur); [|discriminate]. simpl.
    destruct (find_key a (n_content cur)) as [v|] eqn:F; [|discriminate]. intros H. rewrite (upd_key_id a _ _ v F (IH v H)). destruct cur; reflexivity. }
  rewrite <- Hid at 2. apply (redit_edit _ _ done cur m P Hd). split; [reflexivity|]. exists (n_head m), ps. split; [rewrite <- E1; apply mapping_eta, Hm|exact E2].
Qed.
