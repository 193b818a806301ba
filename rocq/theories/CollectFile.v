(** * The markers of a file: proofs for [file_markers] *)

From Coq Require Import List String Bool Arith Lia Sorted Permutation.
From Verif Require Import GoLib GoLibFacts MapFacts DocModel RegistryModel CollectModel CollectSpec CollectProofs.
Import ListNotations.
Open Scope nat_scope.
Open Scope list_scope.

Lemma assoc_ext {V} (a : list (nat * V)) : forall b, map fst a = map fst b -> NoDup (map fst a) ->
  (forall k, mget Nat.eqb a k = mget Nat.eqb b k) -> a = b.
Proof.
  induction a as [|[k v] a IH]; intros [|[k' v'] b] E N H; try discriminate; [reflexivity|].
  cbn in E. injection E as <- E. cbn in N. apply NoDup_cons_iff in N. destruct N as [Nk N].
  assert (Hk := H k). cbn in Hk. rewrite Nat.eqb_refl in Hk. injection Hk as <-. f_equal. apply IH; [easy|easy|].
  intros x. destruct (Nat.eq_dec x k) as [->|Ne].
  - rewrite (proj2 (mget_none _ _ _ Nat.eqb_eq a k) Nk). symmetry. apply (mget_none _ _ _ Nat.eqb_eq). now rewrite <- E.
  - assert (Hx := H x). cbn in Hx. rewrite (proj2 (Nat.eqb_neq x k) Ne) in Hx. exact Hx.
Qed.

Section File.
Context {A : Type} (reg : registry A).
Notation stays := (stays A reg).
Notation moved ms := (filter (fun m => negb (stays m)) ms).

Definition keep (types : nat -> bool) (kv : nat * list marker) : nat * list marker :=
  (fst kv, if types (fst kv) then filter stays (snd kv) else snd kv).
Definition move (types : nat -> bool) (kv : nat * list marker) : list marker :=
  if types (fst kv) then moved (snd kv) else [].

Lemma reassociate_pkg types l : forall nodes pkg, snd (reassociate A reg types l nodes pkg) = pkg ++ flat_map (move types) l.
Proof.
  induction l as [|[id ms] l IH]; intros nodes pkg; cbn; [now rewrite app_nil_r|]. unfold move at 1. cbn [fst snd].
  destruct (types id); rewrite IH; [now rewrite app_assoc|reflexivity].
Qed.

Lemma reassociate_keys types l : forall nodes pkg, (forall k, In k (map fst l) -> In k (map fst nodes)) ->
  map fst (fst (reassociate A reg types l nodes pkg)) = map fst nodes.
Proof.
  induction l as [|[id ms] l IH]; intros nodes pkg H; cbn; [easy|].
  assert (Hid : In id (map fst nodes)) by now apply H; left.
  destruct (types id); [|now apply IH; intros k Hk; apply H; right].
  rewrite IH.
  - now rewrite (mset_keys_present _ _ _ Nat.eqb_eq).
  - intros k Hk. rewrite (mset_keys_present _ _ _ Nat.eqb_eq) by easy. apply H. now right.
Qed.

Lemma reassociate_get types l : NoDup (map fst l) -> forall nodes pkg k,
  mget Nat.eqb (fst (reassociate A reg types l nodes pkg)) k =
  match mget Nat.eqb l k with
  | Some ms => if types k then Some (filter stays ms) else mget Nat.eqb nodes k
  | None => mget Nat.eqb nodes k
  end.
Proof.
  induction l as [|[id ms] l IH]; intros N nodes pkg k; [reflexivity|]. cbn in N. apply NoDup_cons_iff in N. destruct N as [Ni N].
  cbn. destruct (Nat.eqb_spec k id) as [->|Ne].
  - assert (M : mget Nat.eqb l id = None) by now apply (mget_none _ _ _ Nat.eqb_eq).
    destruct (types id) eqn:T; rewrite IH, M by easy; [now rewrite (mget_mset_eq _ _ _ Nat.eqb_eq)|easy].
  - destruct (types id) eqn:T; rewrite IH by easy; [|easy]. now rewrite (mget_mset_ne _ _ _ Nat.eqb_eq) by easy.
Qed.

Lemma keep_get types l k : mget Nat.eqb (map (keep types) l) k =
  match mget Nat.eqb l k with Some ms => Some (if types k then filter stays ms else ms) | None => None end.
Proof.
  induction l as [|[id ms] l IH]; [reflexivity|]. cbn. destruct (Nat.eqb_spec k id) as [->|]; [reflexivity|exact IH].
Qed.

Lemma reassociate_nodes types l nodes pkg : Permutation l nodes -> NoDup (map fst nodes) ->
  fst (reassociate A reg types l nodes pkg) = map (keep types) nodes.
Proof.
  intros P N. assert (Pk : Permutation (map fst l) (map fst nodes)) by now apply Permutation_map.
  assert (Ek : map fst (fst (reassociate A reg types l nodes pkg)) = map fst nodes).
  { apply reassociate_keys. intros k Hk. now apply (Permutation_in k Pk). }
  apply assoc_ext.
  - rewrite Ek, map_map. apply map_ext. now intros [].
  - now rewrite Ek.
  - intros k. rewrite reassociate_get by (apply (Permutation_NoDup (Permutation_sym Pk) N)).
    rewrite keep_get, (mget_perm _ _ _ Nat.eqb_eq nodes l k N (Permutation_sym P)).
    destruct (mget Nat.eqb nodes k); destruct (types k); easy.
Qed.

Variable order : list (nat * list marker) -> list (nat * list marker).
Hypothesis order_perm : forall l, Permutation (order l) l.

Definition type_ids (es : list event) (id : nat) : bool := existsb (is_type_event id) es.

Lemma file_markers_eq all root cs : let es := walk true (Node root cs) in
  h_kind root = KFile -> well_formed all es ->
  file_markers A reg order all (Node root cs) =
  Some (map (keep (type_ids es)) (assign all es None es) ++
        [(h_id root, flat_map (to_package all es) es ++ written false (below all es) ++
                     flat_map (move (type_ids es)) (order (assign all es None es)))]).
Proof.
  intros es Kr W. unfold file_markers. fold es. destruct (visits_all all es W) as (s & -> & I).
  rewrite (below_range all es _ (i_upto _ _ _ _ I)).
  assert (Nd := i_nodup _ _ _ _ I). assert (K := i_keys _ _ _ _ I).
  rewrite (i_nodes _ _ _ _ I), (i_pkg _ _ _ _ I) in *. fold (type_ids es).
  change (fun id : nat => existsb (is_type_event id) es) with (type_ids es).
  assert (En := reassociate_nodes (type_ids es) (order (assign all es None es)) (assign all es None es)
                  (flat_map (to_package all es) es ++ written false (below all es)) (order_perm _) Nd).
  assert (Ep := reassociate_pkg (type_ids es) (order (assign all es None es)) (assign all es None es)
                  (flat_map (to_package all es) es ++ written false (below all es))).
  destruct (reassociate A reg (type_ids es) _ _ _) as [nodes pkg']. cbn [fst snd] in En, Ep. subst nodes pkg'.
  rewrite mset_fresh; [now rewrite <- app_assoc|]. rewrite keep_get.
  destruct (mget Nat.eqb (assign all es None es) (h_id root)) as [l|] eqn:G; [|easy]. exfalso.
  destruct (K _ _ G) as (t & x & Hx & Ei & Hk).
  assert (Hr : In (Enter true root) es) by now left.
  assert (Q := same_header all es W t x true root Hx Hr Ei). injection Q as _ ->. rewrite Kr in Hk. now destruct Hk.
Qed.

Lemma keep_move types l : Permutation (flat_map snd (map (keep types) l) ++ flat_map (move types) l) (flat_map snd l).
Proof.
  induction l as [|[id ms] l IH]; [reflexivity|]. cbn [map flat_map]. unfold keep at 1, move at 1. cbn [fst snd].
  eapply Permutation_trans; [|apply (Permutation_app_head ms IH)]. destruct (types id).
  - assert (P : forall q : list marker, Permutation (filter stays q ++ moved q) q).
    { induction q as [|m q IHq]; [reflexivity|]. cbn. destruct (stays m); cbn; [now constructor|].
      eapply Permutation_trans; [apply Permutation_sym, Permutation_middle|]. now constructor. }
    eapply Permutation_trans; [|apply (Permutation_app_tail _ (P ms))]. rewrite <- !app_assoc. apply Permutation_app_head.
    apply Permutation_app_swap_app.
  - now rewrite <- app_assoc.
Qed.

Lemma flat_map_perm {X Y} (f : X -> list Y) l l' : Permutation l l' -> Permutation (flat_map f l) (flat_map f l').
Proof. apply Permutation_flat_map. Qed.

(** All that is taken is in the result, once. *)
Lemma file_shares all root cs : let es := walk true (Node root cs) in
  h_kind root = KFile -> well_formed all es -> forall res,
  file_markers A reg order all (Node root cs) = Some res ->
  Permutation (flat_map snd res) (flat_map (share all es) es ++ written false (below all es)).
Proof.
  intros es Kr W res. assert (Fq := file_markers_eq all root cs Kr W). cbv zeta in Fq. fold es in Fq. clearbody es. rewrite Fq. intros [= <-].
  rewrite flat_map_snoc. cbn [snd].
  assert (Sh := assign_shares all es es None (wf_decl all es W)).
  change (fold_left open_step es None) with (open_decl es) in Sh. rewrite (wf_close all es W) in Sh. cbn [of_decl app] in Sh.
  rewrite app_nil_r in Sh.
  eapply Permutation_trans; [|apply (Permutation_app_tail _ Sh)].
  eapply Permutation_trans; [|apply (Permutation_app_tail _ (Permutation_app_tail _ (keep_move (type_ids es) (assign all es None es))))].
  rewrite <- !app_assoc. apply Permutation_app_head.
  rewrite (app_assoc (flat_map (to_package all es) es)). eapply Permutation_trans; [apply Permutation_app_comm|].
  apply Permutation_app_tail. apply flat_map_perm, order_perm.
Qed.
End File.

(** ** Each group is above one node *)

Definition within {X} (l big : list X) : Prop := exists rest, Permutation big (l ++ rest).

Lemma within_refl {X} (l : list X) : within l l.
Proof. exists []. now rewrite app_nil_r. Qed.

Lemma within_trans {X} (a b c : list X) : within a b -> within b c -> within a c.
Proof. intros (r & P) (q & Q). exists (r ++ q). rewrite Q, P. now rewrite app_assoc. Qed.

Lemma within_app {X} (a b c d : list X) : within a b -> within c d -> within (a ++ c) (b ++ d).
Proof.
  intros (r & P) (q & Q). exists (r ++ q). rewrite P, Q. rewrite <- !app_assoc. apply Permutation_app_head.
  apply Permutation_app_swap_app.
Qed.

Lemma within_perm {X} (a b c : list X) : Permutation a b -> within b c -> within a c.
Proof. intros P (r & Q). exists r. now rewrite Q, P. Qed.

Lemma within_filter {X} (f : X -> bool) l : within (filter f l) l.
Proof.
  exists (filter (fun x => negb (f x)) l). induction l as [|x l IH]; [reflexivity|]. cbn. destruct (f x); cbn; [now constructor|].
  eapply Permutation_trans; [|apply Permutation_middle]. now constructor.
Qed.

Lemma within_flat {X Y} (f g : X -> list Y) l : (forall x, within (f x) (g x)) -> within (flat_map f l) (flat_map g l).
Proof. intros H. induction l as [|x l IH]; [apply within_refl|]. cbn. now apply within_app. Qed.

Lemma within_map {X Y} (f : X -> Y) a b : within a b -> within (map f a) (map f b).
Proof. intros (r & P). exists (map f r). rewrite <- map_app. now apply Permutation_map. Qed.

Lemma within_flat_map {X Y} (f : X -> list Y) a b : within a b -> within (flat_map f a) (flat_map f b).
Proof. intros (r & P). exists (flat_map f r). rewrite <- flat_map_app. now apply Permutation_flat_map. Qed.

Lemma within_nodup {X} (a b : list X) : within a b -> NoDup b -> NoDup a.
Proof. intros (r & P) N. apply (Permutation_NoDup P) in N. clear P. induction r as [|x r IH]; [now rewrite app_nil_r in N|]. apply IH. now apply NoDup_remove_1 in N. Qed.

Lemma nodup_within {X} (a : list X) : forall b, NoDup a -> incl a b -> within a b.
Proof.
  induction a as [|x a IH]; intros b N H; [now exists b|]. apply NoDup_cons_iff in N. destruct N as [Nx N].
  destruct (in_split x b (H x (or_introl eq_refl))) as (b1 & b2 & ->).
  destruct (IH (b1 ++ b2) N) as (r & P).
  - intros y Hy. assert (Q := H y (or_intror Hy)). apply in_app_or in Q. apply in_or_app. destruct Q as [Q|[->|Q]]; [now left|easy|now right].
  - exists r. cbn. rewrite <- P. symmetry. apply Permutation_middle.
Qed.

Definition over (all : list group) (es : list event) (e : event) : list group :=
  match e with Enter _ h => above all es h | Leave _ => [] end.

Lemma closest_farther all es h : others all es h = farther all es h ++ closest all es h.
Proof.
  unfold closest, farther. induction (others all es h) as [|g l _] using rev_ind; [reflexivity|]. now rewrite removelast_last, last_of_snoc.
Qed.

Definition cid (m : marker) : nat := c_id (m_comment m).

Lemma written_within d a b : within a b -> within (map cid (written d a)) (map c_id (flat_map g_list b)).
Proof.
  intros H. unfold written. rewrite map_map. unfold cid. cbn [m_comment]. apply within_map.
  eapply within_trans; [apply within_filter|]. now apply within_flat_map.
Qed.

Lemma written_app d a b : written d (a ++ b) = written d a ++ written d b.
Proof. unfold written. now rewrite flat_map_app, filter_app, map_app. Qed.

Lemma share_within all es e : within (map cid (share all es e)) (map c_id (flat_map g_list (over all es e))).
Proof.
  destruct e as [top h|h]; [|apply within_refl]. cbn [over].
  assert (Wf : within (map cid (written false (farther all es h) ++ own all es h)) (map c_id (flat_map g_list (above all es h)))).
  { eapply within_trans with (b := map c_id (flat_map g_list (others all es h ++ docs all es h))).
    - rewrite closest_farther, !flat_map_app, !map_app. unfold own. rewrite map_app, <- app_assoc.
      repeat apply within_app; apply written_within, within_refl.
    - apply within_map, within_flat_map. unfold others, docs. exists []. rewrite app_nil_r.
      induction (above all es h) as [|g l IH]; [reflexivity|]. cbn. destruct (is_doc h g); cbn; [|now constructor].
      eapply Permutation_trans; [|apply Permutation_middle]. now constructor. }
  eapply within_trans; [|exact Wf]. apply within_map.
  assert (N : forall l : list marker, within [] l) by (intros l; now exists l).
  assert (L : forall a b : list marker, within a (a ++ b)) by (intros a b; now exists b).
  assert (Ff : within (if top then written false (farther all es h) else []) (written false (farther all es h))) by (destruct top; [apply within_refl|apply N]).
  unfold share, to_package. unfold single. destruct (h_kind h) as [|[] []| | |]; cbn [orb negb]; rewrite <- ?app_assoc, ?app_nil_r;
    (apply within_app; [exact Ff|]); try apply within_refl; try (destruct top; [apply L|apply N]); apply L.
Qed.

Lemma over_nodup all es : StronglySorted (fun g g' => g_pos g < g_pos g') all -> NoDup (entered es) ->
  NoDup (flat_map (over all es) es ++ below all es).
Proof.
  intros S N.
  assert (Na : NoDup all).
  { clear N. induction S as [|x l S IH F]; [constructor|]. constructor; [|easy]. intros H. rewrite Forall_forall in F. specialize (F x H). lia. }
  assert (D : forall l, NoDup (entered l) -> NoDup (flat_map (over all es) l)).
  { clear N. induction l as [|e l IH]; intros N; [constructor|]. cbn [flat_map]. destruct e as [top h|h]; [|apply IH; exact N].
    cbn in N. apply NoDup_cons_iff in N. destruct N as [Nh N]. specialize (IH N). cbn [over].
    assert (Q : NoDup (above all es h)) by now apply NoDup_filter.
    assert (Dj : forall g, In g (above all es h) -> ~ In g (flat_map (over all es) l)).
    { intros g Hg Hl. apply in_flat_map in Hl. destruct Hl as ([t x|x] & Hx & Hg'); [|destruct Hg'].
      cbn in Hg'. unfold above in Hg, Hg'. apply filter_In in Hg. apply filter_In in Hg'. destruct Hg as [_ Hg], Hg' as [_ Hg'].
      destruct (next es g) as [[t' y|y]|]; try discriminate. apply Nat.eqb_eq in Hg. apply Nat.eqb_eq in Hg'.
      apply Nh. rewrite <- Hg, Hg'. apply in_flat_map. exists (Enter t x). split; [easy|now left]. }
    clear - Q Dj IH. induction (above all es h) as [|g a IHa]; [exact IH|]. apply NoDup_cons_iff in Q. destruct Q as [Qg Q].
    cbn. constructor.
    - intros H. apply in_app_or in H. destruct H as [H|H]; [easy|]. now apply (Dj g); [left|].
    - apply IHa; [easy|]. intros x Hx. apply Dj. now right. }
  specialize (D es N).
  assert (Nb : NoDup (below all es)) by now apply NoDup_filter.
  assert (Dj : forall g, In g (flat_map (over all es) es) -> ~ In g (below all es)).
  { intros g Hg Hb. apply in_flat_map in Hg. destruct Hg as ([t x|x] & Hx & Hg); [|destruct Hg]. cbn in Hg. unfold above in Hg. unfold below in Hb.
    apply filter_In in Hg. apply filter_In in Hb. destruct Hg as [_ Hg], Hb as [_ Hb]. now destruct (next es g). }
  clear - D Nb Dj. induction (flat_map (over all es) es) as [|g a IHa]; [exact Nb|]. apply NoDup_cons_iff in D. destruct D as [Dg D].
  cbn. constructor.
  - intros H. apply in_app_or in H. destruct H as [H|H]; [easy|]. now apply (Dj g); [left|].
  - apply IHa; [easy|]. intros x Hx. apply Dj. now right.
Qed.

Lemma over_within all es : well_formed all es -> within (flat_map (over all es) es ++ below all es) all.
Proof.
  intros W. apply nodup_within; [apply over_nodup; [apply (wf_sorted _ _ W)|apply (wf_ids _ _ W)]|].
  intros g Hg. apply in_app_or in Hg. destruct Hg as [Hg|Hg].
  - apply in_flat_map in Hg. destruct Hg as ([t x|x] & Hx & Hg); [|destruct Hg]. cbn in Hg. unfold above in Hg. now apply filter_In in Hg.
  - unfold below in Hg. now apply filter_In in Hg.
Qed.

Lemma shares_within all es : well_formed all es ->
  within (map cid (flat_map (share all es) es ++ written false (below all es))) (map c_id (flat_map g_list all)).
Proof.
  intros W. eapply within_trans; [|apply within_map, within_flat_map, (over_within all es W)].
  rewrite flat_map_app, !map_app. apply within_app; [|apply written_within, within_refl].
  assert (Fm : forall (X Y Z : Type) (k : Y -> Z) (f : X -> list Y) l, map k (flat_map f l) = flat_map (fun x => map k (f x)) l).
  { intros X Y Z k f l. induction l as [|x l IH]; [reflexivity|]. cbn. now rewrite map_app, IH. }
  assert (Ff : forall l, flat_map g_list (flat_map (over all es) l) = flat_map (fun e => flat_map g_list (over all es e)) l).
  { induction l as [|x l IH]; [reflexivity|]. cbn. now rewrite flat_map_app, IH. }
  rewrite Ff, !Fm. apply within_flat. intros e. apply share_within.
Qed.

(** ** A check of [well_formed] *)

Fixpoint decl_ok (o : option header) (l : list event) : bool :=
  match l with
  | [] => match o with None => true | Some _ => false end
  | e :: l' =>
      match e with Enter _ h => negb (single h) || match o with None => true | Some _ => false end | Leave _ => true end &&
      decl_ok (open_step o e) l'
  end.

Lemma decl_ok_sound l : forall o, decl_ok o l = true ->
  (forall p top h q, l = p ++ Enter top h :: q -> single h = true -> fold_left open_step p o = None) /\ fold_left open_step l o = None.
Proof.
  induction l as [|e l IH]; intros o H; cbn [decl_ok] in H.
  - split; [intros p top h q E; now destruct p|]. now destruct o.
  - apply andb_prop in H. destruct H as [He H]. destruct (IH _ H) as (I1 & I2). split; [|exact I2].
    intros [|e' p] top h q E S; cbn in E; injection E as -> ->.
    + rewrite S in He. cbn in *. now destruct o.
    + cbn. now apply (I1 p top h q).
Qed.

Fixpoint sortedb (l : list group) : bool :=
  match l with
  | g :: l' => forallb (fun g' => Nat.ltb (g_pos g) (g_pos g')) l' && sortedb l'
  | [] => true
  end.
Fixpoint distinctb (l : list nat) : bool :=
  match l with
  | x :: l' => negb (existsb (Nat.eqb x) l') && distinctb l'
  | [] => true
  end.

Definition well_formedb (all : list group) (es : list event) : bool :=
  sortedb all && distinctb (entered es) && decl_ok None es &&
  forallb (fun e => match e with
                    | Leave _ => true
                    | Enter _ h =>
                        match h_doc h with
                        | None => true
                        | Some p => existsb (fun g => Nat.eqb (g_pos g) p) (above all es h) && forallb (fun g => Nat.leb (g_pos g) p) (above all es h)
                        end &&
                        match h_trail h with
                        | None => true
                        | Some p => forallb (fun g => negb (Nat.eqb p (g_pos g)) || match next es g with Some (Leave _) => true | _ => false end) all
                        end
                    end) es.

Lemma well_formedb_sound all es : well_formedb all es = true -> well_formed all es.
Proof.
  unfold well_formedb. intros H. apply andb_prop in H. destruct H as [H Hf]. apply andb_prop in H. destruct H as [H Hd].
  apply andb_prop in H. destruct H as [Hs Hi]. rewrite forallb_forall in Hf.
  destruct (decl_ok_sound es None Hd) as (D1 & D2). constructor.
  - clear - Hs. induction all as [|g l IH]; [constructor|]. cbn in Hs. apply andb_prop in Hs. destruct Hs as [Hg Hs].
    constructor; [now apply IH|]. rewrite forallb_forall in Hg. apply Forall_forall. intros x Hx. apply Nat.ltb_lt. now apply Hg.
  - clear - Hi. induction (entered es) as [|x l IH]; [constructor|]. cbn in Hi. apply andb_prop in Hi. destruct Hi as [Hx Hi].
    constructor; [|now apply IH]. intros Q. apply negb_true_iff in Hx. assert (E : existsb (Nat.eqb x) l = true); [|congruence].
    apply existsb_exists. exists x. split; [easy|apply Nat.eqb_refl].
  - intros top h p He Hp. specialize (Hf _ He). cbn in Hf. rewrite Hp in Hf. apply andb_prop in Hf. destruct Hf as [Hf _].
    apply andb_prop in Hf. destruct Hf as [H1 H2]. apply existsb_exists in H1. destruct H1 as (g & Hg & E). apply Nat.eqb_eq in E.
    rewrite forallb_forall in H2. exists g. split; [easy|]. split; [easy|]. intros g' Hg'. apply Nat.leb_le. now apply H2.
  - intros top h g He Hg Ht. specialize (Hf _ He). cbn in Hf. rewrite Ht in Hf. apply andb_prop in Hf. destruct Hf as [_ Hf].
    rewrite forallb_forall in Hf. specialize (Hf g Hg). rewrite Nat.eqb_refl in Hf. cbn in Hf.
    destruct (next es g) as [[t x|x]|]; try discriminate. now exists x.
  - exact D1.
  - exact D2.
Qed.
