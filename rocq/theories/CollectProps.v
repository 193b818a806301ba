(** * C44: every marker comment is given to one node, and to the right one *)

From Coq Require Import List String Bool Arith Lia Sorted Permutation.
From Verif Require Import GoLib GoLibFacts MapFacts DocModel RegistryModel CollectModel CollectSpec CollectProofs CollectFile.
Import ListNotations.
Open Scope nat_scope.
Open Scope list_scope.

(** A comment group [g] is read, as Godoc or not: it is below everything; or it is directly above a node and, as Godoc,
    that of a file, a type or a field, or of a declaration of one type; or else it is at the top level, or is the closest
    of its node, which is a declaration, a type or a field. *)
Definition taken (all : list group) (es : list event) (g : group) (godoc : bool) : Prop :=
  match next es g with
  | None => godoc = false
  | Some (Leave _) => False
  | Some (Enter top h) =>
      if is_doc h g
      then godoc = true /\ (h_kind h = KFile \/ h_kind h = KType \/ h_kind h = KField \/ h_kind h = KDecl false true)
      else godoc = false /\ (top = true \/ (In g (closest all es h) /\ h_kind h <> KOther))
  end.

Lemma stays_misplaced {A} (reg : registry A) m : stays A reg m = negb (misplaced reg m).
Proof.
  unfold stays, misplaced, known. destruct (m_godoc m); [reflexivity|].
  destruct (lookup A reg (marker_text m) DescribesType), (lookup A reg (marker_text m) DescribesPackage); reflexivity.
Qed.

Lemma moved_misplaced {A} (reg : registry A) l : filter (fun m => negb (stays A reg m)) l = filter (misplaced reg) l.
Proof. apply filter_ext. intros m. rewrite stays_misplaced. apply negb_involutive. Qed.

Lemma node_ind' (P : node -> Prop) : (forall h cs, Forall P cs -> P (Node h cs)) -> forall n, P n.
Proof.
  intros H. fix F 1. intros [h cs]. apply H. induction cs as [|c cs IH]; constructor; [apply F|exact IH].
Qed.

Lemma walk_inside n : forall top x, (exists t, In (Enter t x) (walk top n)) <-> inside n x.
Proof.
  induction n as [h cs IH] using node_ind'. intros top x. cbn [walk]. split.
  - intros (t & [E|H]).
    + injection E as _ <-. constructor.
    + apply in_app_or in H. destruct H as [H|[H|[]]]; [|discriminate]. apply in_flat_map in H. destruct H as (c & Hc & H).
      apply inside_child with c; [easy|]. rewrite Forall_forall in IH. apply (IH c Hc (is_file h)). now exists t.
  - intros H. inversion H as [? ?|? ? c ? Hc Hx]; subst; [exists top; now left|].
    rewrite Forall_forall in IH. apply (IH c Hc (is_file h)) in Hx. destruct Hx as (t & Hx). exists t. right.
    apply in_or_app. left. apply in_flat_map. now exists c.
Qed.

Section Props.
Variable A : Type.
Variable reg : registry A.
Variable order : list (nat * list marker) -> list (nat * list marker).
Hypothesis order_perm : forall l, Permutation (order l) l.
Variable all : list group.
Variable root : header.
Variable cs : list node.
Let es := walk true (Node root cs).
Hypothesis root_file : h_kind root = KFile.
Hypothesis W : well_formed all es.

(** There is no panic. *)
Theorem collect_returns : exists res, file_markers A reg order all (Node root cs) = Some res.
Proof. eexists. exact (file_markers_eq reg order order_perm all root cs root_file W). Qed.

Variable res : list (nat * list marker).
Hypothesis Hres : file_markers A reg order all (Node root cs) = Some res.

Lemma res_eq : res = map (keep reg (type_ids es)) (assign all es None es) ++
        [(h_id root, flat_map (to_package all es) es ++ written false (below all es) ++
                     flat_map (move reg (type_ids es)) (order (assign all es None es)))].
Proof. assert (E := file_markers_eq reg order order_perm all root cs root_file W). cbv zeta in E. fold es in E. congruence. Qed.

Lemma nodes_inv : exists s, inv all es es s.
Proof. destruct (visits_all all es W) as (s & _ & I). now exists s. Qed.

Lemma root_entered : In (Enter true root) es.
Proof. now left. Qed.

Lemma get_app l (m : list (nat * list marker)) k : mget Nat.eqb (l ++ m) k = match mget Nat.eqb l k with Some v => Some v | None => mget Nat.eqb m k end.
Proof. induction l as [|[k' v] l IH]; [reflexivity|]. cbn. destruct (Nat.eqb k k'); [reflexivity|exact IH]. Qed.

Lemma type_id top h : In (Enter top h) es -> type_ids es (h_id h) = is_type h.
Proof.
  intros H. unfold type_ids. destruct (existsb (is_type_event (h_id h)) es) eqn:E.
  - apply existsb_exists in E. destruct E as ([t x|x] & Hx & E); [|discriminate]. cbn in E.
    destruct (h_kind x) eqn:K; try discriminate. apply Nat.eqb_eq in E.
    assert (Q := same_header all es W t x top h Hx H E). injection Q as _ ->. unfold is_type. now rewrite K.
  - destruct (is_type h) eqn:T; [|reflexivity]. exfalso. assert (Q : existsb (is_type_event (h_id h)) es = true); [|congruence].
    apply existsb_exists. exists (Enter top h). split; [easy|]. cbn. unfold is_type in T. destruct (h_kind h); try discriminate. apply Nat.eqb_refl.
Qed.

(** A field gets the markers of the closest comment group above it and of its Godoc, in this order. *)
Theorem field_markers top h : In (Enter top h) es -> h_kind h = KField -> mget Nat.eqb res (h_id h) = Some (own all es h).
Proof.
  intros H K. rewrite res_eq, get_app, keep_get. destruct nodes_inv as (s & I).
  rewrite <- (i_nodes _ _ _ _ I), (i_field _ _ _ _ I top h H K), (type_id top h H). unfold is_type. now rewrite K.
Qed.

(** A type gets those of its declaration, if that has no parentheses, then its own; less those that are for a package
    and not for a type. *)
Theorem type_markers p top h q : es = p ++ Enter top h :: q -> h_kind h = KType ->
  mget Nat.eqb res (h_id h) = Some (filter (fun m => negb (misplaced reg m)) (of_decl all es (open_decl p) ++ own all es h)).
Proof.
  intros E K. rewrite (filter_ext _ _ (fun m => eq_sym (stays_misplaced reg m))). assert (H : In (Enter top h) es) by (rewrite E; apply in_or_app; now right; left).
  rewrite res_eq, get_app, keep_get. destruct nodes_inv as (s & I).
  rewrite <- (i_nodes _ _ _ _ I), (i_type _ _ _ _ I p top h q E K), (type_id top h H). unfold is_type. now rewrite K.
Qed.

(** The markers moved away from a type. *)
Definition moved_from (p : list event) (h : header) : list marker :=
  filter (misplaced reg) (of_decl all es (open_decl p) ++ own all es h).
Fixpoint moved (p l : list event) : list marker :=
  match l with
  | [] => []
  | e :: l' => match e with Enter _ h => if is_type h then moved_from p h else [] | Leave _ => [] end ++ moved (p ++ [e]) l'
  end.

Lemma moved_assign l : forall p, es = p ++ l -> flat_map (move reg (type_ids es)) (assign all es (open_decl p) l) = moved p l.
Proof.
  pose proof (moved_misplaced reg) as Mm.
  induction l as [|e l IH]; intros p E; [reflexivity|].
  assert (IH' := IH (p ++ [e])). rewrite <- app_assoc in IH'. specialize (IH' E). rewrite open_snoc in IH'.
  destruct e as [top h|h]; [|exact IH'].
  assert (H : In (Enter top h) es) by (rewrite E; apply in_or_app; now right; left).
  assert (Ti := type_id top h H).
  cbn [assign moved]. unfold single, is_type in *. destruct (h_kind h) as [|[] []| | |]; try exact IH'.
  - cbn [flat_map]. unfold move at 1. cbn [fst snd]. rewrite Ti. f_equal; [apply Mm|exact IH'].
  - cbn [flat_map]. unfold move at 1. cbn [fst snd]. rewrite Ti. exact IH'.
Qed.

(** The package gets, in the order of the file, what is its own; then what is below everything; then what was moved
    away from the types, these in any order. *)
Theorem package_markers : exists tail,
  mget Nat.eqb res (h_id root) = Some (flat_map (to_package all es) es ++ written false (below all es) ++ tail) /\
  Permutation tail (moved [] es).
Proof.
  exists (flat_map (move reg (type_ids es)) (order (assign all es None es))). split.
  - rewrite res_eq, get_app, keep_get. destruct nodes_inv as (s & I).
    assert (E : mget Nat.eqb (assign all es None es) (h_id root) = None).
    { rewrite <- (i_nodes _ _ _ _ I). destruct (mget Nat.eqb (s_nodes s) (h_id root)) as [l|] eqn:G; [|easy]. exfalso.
      destruct (i_keys _ _ _ _ I _ _ G) as (t & x & Hx & Ei & Hk).
      assert (Q := same_header all es W t x true root Hx root_entered Ei). injection Q as _ ->. rewrite root_file in Hk. now destruct Hk. }
    rewrite E. cbn [mget]. now rewrite Nat.eqb_refl.
  - rewrite <- (moved_assign es [] eq_refl). apply Permutation_flat_map, order_perm.
Qed.

(** All nodes of the file are visited; those at the top level are the file and its children. *)
Theorem nodes_visited h : (exists top, In (Enter top h) es) <-> inside (Node root cs) h.
Proof. apply walk_inside. Qed.

Theorem top_level top h : (forall c x, In c cs -> inside c x -> h_kind x <> KFile) ->
  In (Enter top h) es -> (top = true <-> h = root \/ exists xs, In (Node h xs) cs).
Proof.
  intros Nf H. split.
  - intros ->. destruct H as [E|H]; [injection E as <-; now left|]. right.
    apply in_app_or in H. destruct H as [H|[H|[]]]; [|discriminate]. apply in_flat_map in H. destruct H as (c & Hc & H).
    destruct c as [x xs]. destruct H as [E|H]; [injection E as _ ->; now exists xs|]. exfalso.
    assert (Hx : is_file x = false). { unfold is_file. assert (Q := Nf _ x Hc (inside_self x xs)). now destruct (h_kind x). }
    apply in_app_or in H. destruct H as [H|[H|[]]]; [|discriminate]. rewrite Hx in H. apply in_flat_map in H. destruct H as (d & Hd & H).
    assert (Q : forall n, (forall y, inside n y -> h_kind y <> KFile) -> ~ In (Enter true h) (walk false n)).
    { clear. induction n as [y ys IH] using node_ind'. intros Nf H. cbn [walk] in H. destruct H as [H|H]; [discriminate|].
      apply in_app_or in H. destruct H as [H|[H|[]]]; [|discriminate]. apply in_flat_map in H. destruct H as (e & He & H).
      assert (Hy : is_file y = false). { unfold is_file. assert (Q := Nf y (inside_self y ys)). now destruct (h_kind y). }
      rewrite Hy in H. rewrite Forall_forall in IH. apply (IH e He); [|exact H]. intros z Hz. apply Nf. now apply inside_child with e. }
    apply (Q d); [|exact H]. intros y Hy. apply (Nf (Node x xs)); [easy|]. now apply inside_child with d.
  - assert (S : forall t' x, In (Enter t' x) es -> x = h -> t' = top).
    { intros t' x Hx ->. assert (Q := same_header all es W t' h top h Hx H eq_refl). now injection Q. }
    intros [->|(xs & Hx)]; symmetry; [apply (S true root); [now left|easy]|]. apply (S true h); [|easy].
    right. apply in_or_app. left. apply in_flat_map. exists (Node h xs). split; [easy|]. left. unfold is_file. now rewrite root_file.
Qed.

(** No other node gets any. *)
Theorem only_these id ms : mget Nat.eqb res id = Some ms ->
  id = h_id root \/ exists top h, In (Enter top h) es /\ h_id h = id /\ (h_kind h = KField \/ h_kind h = KType).
Proof.
  rewrite res_eq, get_app, keep_get. destruct nodes_inv as (s & I). rewrite <- (i_nodes _ _ _ _ I).
  destruct (mget Nat.eqb (s_nodes s) id) as [l|] eqn:G.
  - intros _. right. exact (i_keys _ _ _ _ I _ _ G).
  - cbn [mget]. destruct (Nat.eqb_spec id (h_id root)); [now left|discriminate].
Qed.

(** No comment is given twice, be it to one node or to two. *)
Theorem collected_once : NoDup (map c_id (flat_map g_list all)) -> NoDup (map (fun m => c_id (m_comment m)) (flat_map snd res)).
Proof.
  intros N. assert (P := file_shares reg order order_perm all root cs root_file W res Hres). fold es in P.
  change (NoDup (map cid (flat_map snd res))).
  apply (Permutation_NoDup (Permutation_sym (Permutation_map cid P))). apply (within_nodup _ _ (shares_within all es W) N).
Qed.

Lemma in_written c d d' gs : In (mkMarker c d) (written d' gs) <-> d = d' /\ is_marker_comment (c_text c) = true /\ exists g, In g gs /\ In c (g_list g).
Proof.
  unfold written. rewrite in_map_iff. split.
  - intros (x & [= -> ->] & H). apply filter_In in H. destruct H as [H M]. apply in_flat_map in H. easy.
  - intros (-> & M & g & Hg & Hc). exists c. split; [easy|]. apply filter_In. split; [|easy]. apply in_flat_map. now exists g.
Qed.

Lemma in_above g h : In g (above all es h) <-> In g all /\ exists top h', next es g = Some (Enter top h') /\ h_id h' = h_id h.
Proof.
  unfold above. rewrite filter_In. split; intros (Hg & H); (split; [easy|]).
  - destruct (next es g) as [[t x|x]|]; try discriminate. apply Nat.eqb_eq in H. now exists t, x.
  - destruct H as (t & x & -> & E). now apply Nat.eqb_eq.
Qed.

Lemma next_in g e : next es g = Some e -> In e es.
Proof. intros H. apply find_some in H. easy. Qed.

Lemma above_next g top h : In (Enter top h) es -> In g (above all es h) -> next es g = Some (Enter top h).
Proof.
  intros Hh H. apply in_above in H. destruct H as (Hg & t & x & En & Ei). rewrite En. f_equal.
  apply (same_header all es W t x top h); [now apply next_in in En|easy|easy].
Qed.

Lemma in_others g h : In g (others all es h) <-> In g (farther all es h) \/ In g (closest all es h).
Proof. rewrite closest_farther. apply in_app_iff. Qed.

Lemma in_share top h c d : In (Enter top h) es ->
  (In (mkMarker c d) (share all es (Enter top h)) <->
   is_marker_comment (c_text c) = true /\ exists g, In g (above all es h) /\ In c (g_list g) /\
   if is_doc h g then d = true /\ (h_kind h = KFile \/ h_kind h = KType \/ h_kind h = KField \/ h_kind h = KDecl false true)
   else d = false /\ (top = true \/ (In g (closest all es h) /\ h_kind h <> KOther))).
Proof.
  intros Hh.
  assert (Cl : forall g, In g (closest all es h) -> In g (above all es h) /\ is_doc h g = false).
  { intros g Hg. assert (Q : In g (others all es h)) by (apply in_others; now right). apply filter_In in Q. destruct Q as [Q1 Q2]. split; [easy|].
    now destruct (is_doc h g). }
  assert (Fa : forall g, In g (farther all es h) -> In g (above all es h) /\ is_doc h g = false).
  { intros g Hg. assert (Q : In g (others all es h)) by (apply in_others; now left). apply filter_In in Q. destruct Q as [Q1 Q2]. split; [easy|].
    now destruct (is_doc h g). }
  assert (Do : forall g, In g (docs all es h) <-> In g (above all es h) /\ is_doc h g = true) by (intros g; apply filter_In).
  assert (Ot : forall g, In g (above all es h) -> is_doc h g = false -> In g (farther all es h) \/ In g (closest all es h)).
  { intros g Hg Hd. apply in_others. apply filter_In. now rewrite Hd. }
  unfold share, to_package, own, single. split.
  - intros H.
    assert (Hc : (top = true /\ In (mkMarker c d) (written false (farther all es h))) \/
                 (In (mkMarker c d) (written false (closest all es h)) /\ (h_kind h <> KOther \/ top = true)) \/
                 (In (mkMarker c d) (written true (docs all es h)) /\ (h_kind h = KFile \/ h_kind h = KType \/ h_kind h = KField \/ h_kind h = KDecl false true))).
    { rewrite !in_app_iff in H. destruct H as [[H|H]|H].
      - destruct top; [now left|destruct H].
      - destruct (h_kind h) as [|paren typ| | |] eqn:K; rewrite ?in_app_iff in H.
        + destruct H as [H|H]; right; [left|right]; (split; [easy|]); [now left|now left].
        + destruct (paren || negb typ); [|destruct H]. right. left. split; [easy|now left].
        + destruct H.
        + destruct H.
        + destruct top; [|destruct H]. right. left. split; [easy|now right].
      - destruct (h_kind h) as [|[] []| | |] eqn:K; try destruct H; rewrite ?in_app_iff in H;
          destruct H as [H|H]; right; [left|right|left|right|left|right]; (split; [exact H|]); tauto || (left; discriminate). }
    destruct Hc as [(Ht & Hc)|[(Hc & Hk)|(Hc & Hk)]]; apply in_written in Hc; destruct Hc as (-> & M & g & Hg & Hin); (split; [easy|]); exists g.
    + destruct (Fa g Hg) as (Ha & Hd). rewrite Hd. split; [easy|]. split; [easy|]. split; [easy|]. now left.
    + destruct (Cl g Hg) as (Ha & Hd). rewrite Hd. split; [easy|]. split; [easy|]. split; [easy|]. destruct Hk as [Hk| ->]; [now right|now left].
    + apply Do in Hg. destruct Hg as (Ha & Hd). rewrite Hd. easy.
  - intros (M & g & Hg & Hin & Hc). destruct (is_doc h g) eqn:Hd.
    + destruct Hc as (-> & Hk). assert (Q : In (mkMarker c true) (written true (docs all es h))).
      { apply in_written. split; [easy|]. split; [easy|]. exists g. split; [now apply Do|easy]. }
      destruct Hk as [K|[K|[K|K]]]; rewrite K; rewrite !in_app_iff; tauto.
    + destruct Hc as (-> & Hk).
      assert (Wr : forall gs, In g gs -> In (mkMarker c false) (written false gs)).
      { intros gs Hgs. apply in_written. split; [easy|]. split; [easy|]. now exists g. }
      destruct Hk as [->|(Hcl & Hk)].
      * destruct (Ot g Hg Hd) as [Hf|Hcl].
        -- rewrite !in_app_iff. left. left. now apply Wr.
        -- assert (Q := Wr _ Hcl). destruct (h_kind h) as [|[] []| | |]; cbn [orb negb]; rewrite !in_app_iff; tauto.
      * assert (Q := Wr _ Hcl). destruct (h_kind h) as [|[] []| | |]; cbn [orb negb]; rewrite !in_app_iff; try tauto.
Qed.

(** Which marker comments are given to some node: exactly those of the groups described by [taken]. *)
Theorem collected_iff c d : (exists id ms, In (id, ms) res /\ In (mkMarker c d) ms) <->
  is_marker_comment (c_text c) = true /\ exists g, In g all /\ In c (g_list g) /\ taken all es g d.
Proof.
  assert (P := file_shares reg order order_perm all root cs root_file W res Hres). fold es in P.
  transitivity (In (mkMarker c d) (flat_map snd res)).
  { rewrite in_flat_map. split; [intros (id & ms & H1 & H2); now exists (id, ms)|intros ([id ms] & H1 & H2); now exists id, ms]. }
  transitivity (In (mkMarker c d) (flat_map (share all es) es ++ written false (below all es))).
  { split; apply Permutation_in; [easy|now apply Permutation_sym]. }
  rewrite in_app_iff, in_flat_map. split.
  - intros [([top h|h] & He & H)|H].
    + apply in_share in H; [|easy]. destruct H as (M & g & Hg & Hin & Hc). split; [easy|]. exists g.
      split; [now apply in_above in Hg|]. split; [easy|]. unfold taken. now rewrite (above_next g top h He Hg).
    + destruct H.
    + apply in_written in H. destruct H as (-> & M & g & Hg & Hin). split; [easy|]. exists g. apply filter_In in Hg. destruct Hg as [Hg Hn].
      split; [easy|]. split; [easy|]. unfold taken. now destruct (next es g).
  - intros (M & g & Hg & Hin & T). unfold taken in T. destruct (next es g) as [[top h|h]|] eqn:En; [|destruct T|].
    + left. assert (He := next_in g _ En). exists (Enter top h). split; [easy|]. apply in_share; [easy|]. split; [easy|]. exists g.
      split; [|easy]. apply in_above. split; [easy|]. now exists top, h.
    + right. apply in_written. split; [easy|]. split; [easy|]. exists g. split; [|easy]. apply filter_In. now rewrite En.
Qed.
End Props.
Print Assumptions collect_returns.
Print Assumptions field_markers.
Print Assumptions type_markers.
Print Assumptions package_markers.
Print Assumptions nodes_visited.
Print Assumptions top_level.
Print Assumptions only_these.
Print Assumptions collected_once.
Print Assumptions collected_iff.

(** ** The order of the iteration *)

Lemma flat_map_one {X Y} (f : X -> list Y) l l' : Permutation l l' -> NoDup l ->
  (forall x y, In x l -> In y l -> f x <> [] -> f y <> [] -> x = y) -> flat_map f l = flat_map f l'.
Proof.
  intros P N H.
  pose (ne := fun x => match f x with [] => false | _ => true end).
  assert (Fl : forall k, flat_map f k = flat_map f (filter ne k)).
  { induction k as [|x k IH]; [reflexivity|]. cbn. unfold ne at 1. destruct (f x) eqn:E; cbn; rewrite ?E; [exact IH|]. now rewrite IH. }
  rewrite (Fl l), (Fl l').
  assert (Pf : Permutation (filter ne l) (filter ne l')).
  { clear - P. induction P; cbn; [constructor|destruct (ne x); auto|destruct (ne x), (ne y); auto; constructor|now transitivity (filter ne l')]. }
  assert (Nf : NoDup (filter ne l)) by now apply NoDup_filter.
  assert (Hf : forall x y, In x (filter ne l) -> In y (filter ne l) -> x = y).
  { intros x y Hx Hy. apply filter_In in Hx. apply filter_In in Hy. apply H; try easy; destruct Hx as [_ Hx], Hy as [_ Hy]; unfold ne in *.
    - now destruct (f x).
    - now destruct (f y). }
  destruct (filter ne l) as [|x [|y k]].
  - now rewrite (Permutation_nil Pf).
  - now rewrite (Permutation_length_1_inv Pf).
  - exfalso. assert (E : x = y) by (apply Hf; [now left|now right; left]). subst y. inversion Nf as [|? ? Q _]. apply Q. now left.
Qed.

(** If markers are moved away from one type of the file only, or from none, the order does not matter. *)
Theorem order_independent A (reg : registry A) order order' all root cs :
  (forall l, Permutation (order l) l) -> (forall l, Permutation (order' l) l) ->
  h_kind root = KFile -> well_formed all (walk true (Node root cs)) ->
  (forall p top h q p' top' h' q',
     walk true (Node root cs) = p ++ Enter top h :: q -> walk true (Node root cs) = p' ++ Enter top' h' :: q' ->
     h_kind h = KType -> h_kind h' = KType ->
     moved_from A reg all root cs p h <> [] -> moved_from A reg all root cs p' h' <> [] -> h = h') ->
  file_markers A reg order all (Node root cs) = file_markers A reg order' all (Node root cs).
Proof.
  intros P P' K W H. assert (E := file_markers_eq reg order P all root cs K W). assert (E' := file_markers_eq reg order' P' all root cs K W).
  set (es := walk true (Node root cs)) in *. cbv zeta in E, E'. fold es in E, E'.
  rewrite E, E'. do 6 f_equal.
  destruct (visits_all all es W) as (s & _ & I).
  assert (Nd : NoDup (map fst (assign all es None es))) by (rewrite <- (i_nodes _ _ _ _ I); apply (i_nodup _ _ _ _ I)).
  assert (N : NoDup (assign all es None es)) by (apply (NoDup_map_inv fst); exact Nd).
  set (l := assign all es None es) in *.
  apply flat_map_one.
  - rewrite P. symmetry. apply P'.
  - apply (Permutation_NoDup (Permutation_sym (P l)) N).
  - assert (Q : forall id ms, In (id, ms) l -> move reg (type_ids es) (id, ms) <> [] ->
       exists p top h q, es = p ++ Enter top h :: q /\ h_kind h = KType /\ h_id h = id /\ moved_from A reg all root cs p h <> []).
    { intros id ms Hin Hm.
      assert (G : mget Nat.eqb l id = Some ms) by (apply (in_mget _ _ _ Nat.eqb_eq); easy).
      unfold l in G. rewrite <- (i_nodes _ _ _ _ I) in G.
      destruct (i_keys _ _ _ _ I _ _ G) as (t & x & Hx & Ei & Hk). subst id.
      assert (Ti : type_ids es (h_id x) = true). { unfold move in Hm. cbn [fst snd] in Hm. destruct (type_ids es (h_id x)); easy. }
      assert (Tx : type_ids es (h_id x) = is_type x) by exact (type_id all root cs W t x Hx).
      rewrite Tx in Ti. unfold is_type in Ti. destruct (h_kind x) eqn:Kx; try discriminate.
      destruct (in_split _ _ Hx) as (p & q & Ep). exists p, t, x, q. split; [easy|]. split; [easy|]. split; [easy|].
      rewrite (i_type _ _ _ _ I p t x q Ep Kx) in G. injection G as <-. unfold move in Hm. cbn [fst snd] in Hm.
      rewrite Tx in Hm. unfold is_type in Hm. rewrite Kx, moved_misplaced in Hm. exact Hm. }
    intros [id ms] [id' ms'] Hx Hy Mx My.
    apply (Permutation_in _ (P l)) in Hx. apply (Permutation_in _ (P l)) in Hy.
    destruct (Q id ms Hx Mx) as (p & top & h & q & Ep & Kh & Eh & Hh). destruct (Q id' ms' Hy My) as (p' & top' & h' & q' & Ep' & Kh' & Eh' & Hh').
    assert (h = h') by (apply (H p top h q p' top' h' q'); easy). subst h'.
    assert (Ei : id' = id) by congruence. rewrite Ei in Hy |- *.
    assert (G := in_mget _ _ _ Nat.eqb_eq l id ms Nd Hx). assert (G' := in_mget _ _ _ Nat.eqb_eq l id ms' Nd Hy). congruence.
Qed.
Print Assumptions order_independent.

(** ** Values *)

Section Values.
Variable A V : Type.
Variable reg : registry A.
Variable parse : def A -> string -> option V.

(** The values of a name: those of its markers, in order. *)
Definition values_of (t : target) (name : string) (m : marker) : list V :=
  match lookup A reg (marker_text m) t with
  | Some d => if String.eqb (d_name d) name then match parse d (marker_text m) with Some v => [v] | None => [] end else []
  | None => []
  end.
Definition unparsed (t : target) (m : marker) : list comment :=
  match lookup A reg (marker_text m) t with
  | Some d => match parse d (marker_text m) with Some _ => [] | None => [m_comment m] end
  | None => []
  end.

Definition named (vals : list (string * list V)) (name : string) : list V :=
  match mget String.eqb vals name with Some l => l | None => [] end.

Theorem values_in_order t ms name :
  named (fst (values A reg V parse t ms [] [])) name = flat_map (values_of t name) ms /\
  snd (values A reg V parse t ms [] []) = flat_map (unparsed t) ms.
Proof.
  enough (Q : forall vals errs, named (fst (values A reg V parse t ms vals errs)) name = named vals name ++ flat_map (values_of t name) ms /\
    snd (values A reg V parse t ms vals errs) = errs ++ flat_map (unparsed t) ms) by apply (Q [] []).
  induction ms as [|m ms IH]; intros vals errs; cbn [values flat_map].
  - cbn. now rewrite !app_nil_r.
  - unfold values_of at 1, unparsed at 1. destruct (lookup A reg (marker_text m) t) as [d|]; [|apply IH].
    destruct (parse d (marker_text m)) as [v|].
    + destruct (IH (mset String.eqb vals (d_name d) (match mget String.eqb vals (d_name d) with Some l => l | None => [] end ++ [v])) errs) as (I1 & I2).
      rewrite I1, I2. split; [|reflexivity]. unfold named. destruct (String.eqb_spec (d_name d) name) as [<-|Ne].
      * rewrite (mget_mset_eq _ _ _ String.eqb_eq). now rewrite <- app_assoc.
      * rewrite (mget_mset_ne _ _ _ String.eqb_eq); [reflexivity|]. congruence.
    + destruct (IH vals (errs ++ [m_comment m])) as (I1 & I2). rewrite I1, I2, <- app_assoc. destruct (String.eqb (d_name d) name); easy.
Qed.

Lemma values_nodup t ms : NoDup (map fst (fst (values A reg V parse t ms [] []))).
Proof.
  enough (Q : forall vals errs, NoDup (map fst vals) -> NoDup (map fst (fst (values A reg V parse t ms vals errs)))) by (apply Q; constructor).
  induction ms as [|m ms IH]; intros vals errs N; [exact N|]. cbn [values].
  destruct (lookup A reg (marker_text m) t) as [d|]; [|now apply IH]. destruct (parse d (marker_text m)) as [v|]; apply IH; [|easy].
  now apply (mset_nodup _ _ _ String.eqb_eq).
Qed.

(** The values of a package: those of its files, in the order of the files, whatever the order of the iterations. *)
Theorem package_in_order vorder files name : (forall l, Permutation (vorder l) l) ->
  Forall (fun f => NoDup (map fst f)) files ->
  named (package_values V vorder files []) name = flat_map (fun f => named f name) files.
Proof.
  intros P F. enough (Q : forall res, named (package_values V vorder files res) name = named res name ++ flat_map (fun f => named f name) files) by apply (Q []).
  induction F as [|f files N F IH]; intros res; cbn [package_values flat_map]; [now rewrite app_nil_r|].
  rewrite IH, app_assoc. f_equal.
  assert (N' : NoDup (map fst (vorder f))) by (apply (Permutation_NoDup (Permutation_sym (Permutation_map fst (P f))) N)).
  replace (named f name) with (named (vorder f) name) by (unfold named; rewrite (mget_perm _ _ _ String.eqb_eq f (vorder f) name N (Permutation_sym (P f))); reflexivity).
  clear N. generalize dependent (vorder f). intros l N. revert res.
  induction l as [|[k v] l IHl]; intros res; cbn [fold_left fst snd]; [cbn; now rewrite app_nil_r|].
  cbn in N. apply NoDup_cons_iff in N. destruct N as [Nk N]. rewrite (IHl N). unfold named. cbn [mget].
  destruct (String.eqb_spec name k) as [->|Ne].
  - rewrite (mget_mset_eq _ _ _ String.eqb_eq). rewrite (proj2 (mget_none _ _ _ String.eqb_eq l k) Nk). now rewrite app_nil_r.
  - now rewrite (mget_mset_ne _ _ _ String.eqb_eq) by easy.
Qed.
End Values.
Print Assumptions values_in_order.
Print Assumptions package_in_order.

(** ** An example

<<
// +k=far

// +k=near

// +k=doc
package x

// +p=far

// +p=moved
// +t=near

// +t=doc
type T struct {
	// +f=near

	// +f=doc
	A int // +f=trail

	// +f=lost
}

type U struct{}

// +p=end
>> *)

Section Example.
Local Open Scope string_scope.
Definition c1 n t := mkComment n t.
Definition ex_all : list group :=
  [ mkGroup 10 [c1 1 "// +k=far"]; mkGroup 20 [c1 2 "// +k=near"]; mkGroup 30 [c1 3 "// +k=doc"];
    mkGroup 60 [c1 4 "// +p=far"]; mkGroup 70 [c1 5 "// +p=moved"; c1 6 "// +t=near"]; mkGroup 90 [c1 7 "// +t=doc"];
    mkGroup 120 [c1 8 "// +f=near"]; mkGroup 130 [c1 9 "// +f=doc"]; mkGroup 150 [c1 10 "// +f=trail"]; mkGroup 160 [c1 11 "// +f=lost"];
    mkGroup 200 [c1 12 "// +p=end"] ].
Definition other id pos fin := mkHeader id KOther pos fin None None.
(** A comment group with one comment. *)
Definition cg id pos fin : node := Node (other id pos fin) [Node (other (S id) pos fin) []].
Definition ex_root : header := mkHeader 1 KFile 40 190 (Some 30) None.
Definition ex_T : header := mkHeader 10 KType 105 170 None None.
Definition ex_A : header := mkHeader 15 KField 140 145 (Some 130) (Some 150).
Definition ex_U : header := mkHeader 31 KType 185 190 None None.
Definition ex_cs : list node :=
  [ cg 2 30 39; Node (other 4 48 49) [];
    Node (mkHeader 5 (KDecl false true) 100 170 (Some 90) None)
      [ cg 6 90 99;
        Node ex_T
          [ Node (other 11 105 106) [];
            Node (other 12 107 170)
              [ Node (other 13 114 170)
                  [ Node ex_A [ cg 16 130 139; Node (other 18 140 141) []; Node (other 19 142 145) []; cg 20 150 159 ] ] ] ] ];
    Node (mkHeader 30 (KDecl false true) 180 190 None None) [ Node ex_U [ Node (other 32 185 186) [] ] ] ].
Definition ex_reg : registry string :=
  register_all string [ mkDef "k" DescribesPackage "k"; mkDef "p" DescribesPackage "p"; mkDef "t" DescribesType "t"; mkDef "f" DescribesField "f" ].

Example ex_well_formed : well_formed ex_all (walk true (Node ex_root ex_cs)).
Proof. apply well_formedb_sound. vm_compute. reflexivity. Qed.

Example ex_collect : option_map (map (fun kv => (fst kv, map (fun m => (marker_text m, m_godoc m)) (snd kv))))
    (file_markers string ex_reg (fun l => l) ex_all (Node ex_root ex_cs)) =
  Some [ (10, [("+t=near", false); ("+t=doc", true)]); (15, [("+f=near", false); ("+f=doc", true)]); (31, []);
         (1, [("+k=far", false); ("+k=near", false); ("+k=doc", true); ("+p=far", false); ("+p=end", false); ("+p=moved", false)]) ].
Proof. vm_compute. reflexivity. Qed.

(** Markers are moved from one type only. *)
Fixpoint prefixes (p l : list event) : list (list event * event) :=
  match l with [] => [] | e :: l' => (p, e) :: prefixes (p ++ [e])%list l' end.
Lemma prefixes_in l : forall a p x q, (l = p ++ x :: q)%list -> In ((a ++ p)%list, x) (prefixes a l).
Proof.
  induction l as [|e l IH]; intros a p x q E; [now destruct p|]. destruct p as [|e' p]; cbn in E; injection E as -> ->.
  - left. now rewrite app_nil_r.
  - right. assert (Q := IH (a ++ [e'])%list p x q eq_refl). now rewrite <- app_assoc in Q.
Qed.

Example ex_one_moved p top h q : walk true (Node ex_root ex_cs) = (p ++ Enter top h :: q)%list -> h_kind h = KType ->
  moved_from string ex_reg ex_all ex_root ex_cs p h <> [] -> h = ex_T.
Proof.
  intros E K M. assert (I := prefixes_in _ [] p _ q E). cbn [app] in I.
  assert (B : forallb (fun pe => match snd pe with
                                 | Enter _ h => negb (is_type h) || Nat.eqb (h_id h) 10 ||
                                     match moved_from string ex_reg ex_all ex_root ex_cs (fst pe) h with [] => true | _ => false end
                                 | Leave _ => true end) (prefixes [] (walk true (Node ex_root ex_cs))) = true) by (vm_compute; reflexivity).
  rewrite forallb_forall in B. specialize (B _ I). cbn [fst snd] in B. unfold is_type in B. rewrite K in B. cbn [negb orb] in B.
  destruct (moved_from string ex_reg ex_all ex_root ex_cs p h); [easy|]. rewrite orb_false_r in B. apply Nat.eqb_eq in B.
  assert (Hin : In (Enter top h) (walk true (Node ex_root ex_cs))) by (rewrite E; apply in_or_app; now right; left).
  assert (HT : In (Enter false ex_T) (walk true (Node ex_root ex_cs))) by (vm_compute; tauto).
  assert (Q := same_header ex_all _ ex_well_formed top h false ex_T Hin HT B). now injection Q.
Qed.

Example ex_order order : (forall l, Permutation (order l) l) ->
  file_markers string ex_reg order ex_all (Node ex_root ex_cs) = file_markers string ex_reg (fun l => l) ex_all (Node ex_root ex_cs).
Proof.
  intros P. apply order_independent; [easy|intros l; reflexivity|reflexivity|exact ex_well_formed|].
  intros p top h q p' top' h' q' E E' K K' M M'. rewrite (ex_one_moved p top h q E K M). now rewrite (ex_one_moved p' top' h' q' E' K' M').
Qed.
End Example.

(** ** The order of the markers of a package is not that of the file

    Two types, each with a marker that is for the package: which of the two values comes first depends on the order of
    an iteration over a map. MarkerValues.Get, pkg/markers/collect.go:43-49, returns the first. *)
Section Refuted.
Local Open Scope string_scope.
Definition two_all : list group := [ mkGroup 50 [c1 1 "// +p=one"]; mkGroup 100 [c1 2 "// +p=two"] ].
Definition two_root : header := mkHeader 1 KFile 40 190 None None.
Definition two_cs : list node :=
  [ Node (mkHeader 5 (KDecl false true) 70 90 None None) [ Node (mkHeader 6 KType 75 90 None None) [] ];
    Node (mkHeader 7 (KDecl false true) 120 140 None None) [ Node (mkHeader 8 KType 125 140 None None) [] ] ].
Definition get_first (name : string) (order : list (nat * list marker) -> list (nat * list marker)) : option string :=
  match file_markers string ex_reg order two_all (Node two_root two_cs) with
  | None => None
  | Some res =>
      match mget Nat.eqb res (h_id two_root) with
      | None => None
      | Some ms => hd_error (named string (fst (values string ex_reg string (fun _ t => Some t) DescribesPackage ms [] [])) name)
      end
  end.

Theorem package_order_refuted :
  well_formed two_all (walk true (Node two_root two_cs)) /\
  (forall l : list (nat * list marker), Permutation (rev l) l) /\
  get_first "p" (fun l => l) = Some "+p=one" /\ get_first "p" (fun l => rev l) = Some "+p=two".
Proof.
  split; [apply well_formedb_sound; vm_compute; reflexivity|]. split; [intros l; symmetry; apply Permutation_rev|].
  split; vm_compute; reflexivity.
Qed.
End Refuted.
Print Assumptions package_order_refuted.
