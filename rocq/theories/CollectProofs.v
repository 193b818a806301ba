(** * Proofs about CollectModel *)

From Coq Require Import List String Bool Arith Lia Sorted Permutation.
From Verif Require Import GoLib MapFacts DocModel RegistryModel CollectModel CollectSpec.
Import ListNotations.
Open Scope nat_scope.
Open Scope list_scope.

(** ** Lists *)

Lemma filter_range {A} (f : A -> bool) (l : list A) a b :
  a <= b -> b <= List.length l ->
  (forall i x, nth_error l i = Some x -> f x = true <-> a <= i < b) ->
  filter f l = firstn (b - a) (skipn a l).
Proof.
  revert a b. induction l as [|x l IH]; intros a b Hab Hb H; cbn [List.length] in Hb.
  - assert (a = 0) by lia. assert (b = 0) by lia. subst. reflexivity.
  - assert (Hx := H 0 x eq_refl). cbn [filter].
    destruct a as [|a].
    + destruct b as [|b].
      * destruct (f x) eqn:E; [destruct Hx as [Hx _]; specialize (Hx eq_refl); lia|].
        rewrite (IH 0 0); [reflexivity|lia|lia|]. intros i y Hy. rewrite (H (S i) y Hy). lia.
      * destruct (f x) eqn:E; [|destruct Hx as [_ Hx]; discriminate Hx; lia].
        cbn. f_equal. rewrite (IH 0 b); [now rewrite Nat.sub_0_r|lia|lia|]. intros i y Hy. rewrite (H (S i) y Hy). lia.
    + destruct (f x) eqn:E; [destruct Hx as [Hx _]; specialize (Hx eq_refl); lia|].
      destruct b as [|b]; [lia|]. cbn [skipn]. replace (S b - S a) with (b - a) by lia.
      apply IH; [lia|lia|]. intros i y Hy. rewrite (H (S i) y Hy). lia.
Qed.

Lemma sorted_nth l : StronglySorted (fun g g' => g_pos g < g_pos g') l ->
  forall i j g g', i < j -> nth_error l i = Some g -> nth_error l j = Some g' -> g_pos g < g_pos g'.
Proof.
  induction 1 as [|x l S IH F]; intros i j g g' L Hi Hj; [destruct i; discriminate|].
  destruct j as [|j]; [lia|]. destruct i as [|i]; cbn in *.
  - injection Hi as <-. rewrite Forall_forall in F. apply F. eapply nth_error_In; eauto.
  - apply (IH i j); [lia|easy|easy].
Qed.

Lemma sorted_inj l : StronglySorted (fun g g' => g_pos g < g_pos g') l ->
  forall i j g g', nth_error l i = Some g -> nth_error l j = Some g' -> g_pos g = g_pos g' -> i = j.
Proof.
  intros S i j g g' Hi Hj E. destruct (lt_eq_lt_dec i j) as [[L|L]|L]; [|easy|].
  - assert (H := sorted_nth l S i j g g' L Hi Hj). rewrite E in H. now apply Nat.lt_irrefl in H.
  - assert (H := sorted_nth l S j i g' g L Hj Hi). rewrite E in H. now apply Nat.lt_irrefl in H.
Qed.

Lemma count_before_le p l : count_before p l <= List.length l.
Proof. induction l as [|g l IH]; cbn [count_before List.length]; [lia|]. destruct (Nat.ltb (g_pos g) p); lia. Qed.

Lemma count_before_spec p l : StronglySorted (fun g g' => g_pos g < g_pos g') l ->
  forall i g, nth_error l i = Some g -> (i < count_before p l <-> g_pos g < p).
Proof.
  induction 1 as [|x l S IH F]; intros i g Hi; [destruct i; discriminate|]. cbn [count_before].
  destruct (Nat.ltb_spec (g_pos x) p) as [L|L].
  - destruct i as [|i]; cbn in Hi; [injection Hi as <-; lia|]. rewrite <- (IH i g Hi). lia.
  - split; [lia|]. intros H. destruct i as [|i]; cbn in Hi; [injection Hi as <-; lia|].
    rewrite Forall_forall in F. assert (H1 := F g (nth_error_In _ _ Hi)). lia.
Qed.

Lemma sorted_skipn n l : StronglySorted (fun g g' => g_pos g < g_pos g') l ->
  StronglySorted (fun g g' => g_pos g < g_pos g') (skipn n l).
Proof. revert l. induction n as [|n IH]; intros l S; [easy|]. destruct l; [easy|]. cbn. apply IH. now inversion S. Qed.

Lemma nth_skipn {A} n (l : list A) i : nth_error (skipn n l) i = nth_error l (n + i).
Proof. revert l. induction n as [|n IH]; intros [|x l]; cbn; auto. now destruct i. Qed.

Section First.
Variable all : list group.
Hypothesis Hs : StronglySorted (fun g g' => g_pos g < g_pos g') all.

Lemma first_from_ge i p : i <= first_from all i p.
Proof. unfold first_from. lia. Qed.

Lemma first_from_le i p : i <= List.length all -> first_from all i p <= List.length all.
Proof. intros H. unfold first_from. assert (C := count_before_le p (skipn i all)). rewrite skipn_length in C. lia. Qed.

Lemma first_from_spec i p j g : nth_error all j = Some g -> i <= j -> (j < first_from all i p <-> g_pos g < p).
Proof.
  intros Hj L. unfold first_from.
  assert (E : nth_error (skipn i all) (j - i) = Some g) by (rewrite nth_skipn; now replace (i + (j - i)) with j by lia).
  rewrite <- (count_before_spec p _ (sorted_skipn i all Hs) (j - i) g E). lia.
Qed.
End First.

Lemma snoc_inv {A} (p q pre : list A) x e : p ++ x :: q = pre ++ [e] ->
  (q = [] /\ p = pre /\ x = e) \/ exists q', q = q' ++ [e] /\ pre = p ++ x :: q'.
Proof.
  intros H. destruct q as [|y q] using rev_ind.
  - left. apply app_inj_tail in H. easy.
  - right. exists q. rewrite app_comm_cons, app_assoc in H. apply app_inj_tail in H. now destruct H as [<- <-].
Qed.

Lemma flat_map_snoc {A B} (f : A -> list B) l x : flat_map f (l ++ [x]) = flat_map f l ++ f x.
Proof. rewrite flat_map_app. cbn. now rewrite app_nil_r. Qed.

Lemma mset_fresh {V} (m : list (nat * V)) k v : mget Nat.eqb m k = None -> mset Nat.eqb m k v = m ++ [(k, v)].
Proof.
  induction m as [|[k' v'] m IH]; [reflexivity|]. cbn. destruct (Nat.eqb k k') eqn:E; [discriminate|]. intros H. f_equal. now apply IH.
Qed.

Lemma perm_one {X} (t p d o s n : list X) : Permutation (t ++ p ++ d) (o ++ s) -> Permutation (t ++ (n ++ p) ++ d) (o ++ n ++ s).
Proof.
  intros H. rewrite <- app_assoc. eapply Permutation_trans; [apply Permutation_app_swap_app|].
  eapply Permutation_trans; [apply (Permutation_app_head n H)|]. apply Permutation_app_swap_app.
Qed.

Lemma perm_two {X} (t p d o s n w : list X) : Permutation (t ++ p ++ d) (o ++ s) ->
  Permutation ((w ++ t) ++ (n ++ p) ++ d) (o ++ (n ++ w) ++ s).
Proof.
  intros H. rewrite <- app_assoc. eapply Permutation_trans; [apply (Permutation_app_head w (perm_one _ _ _ _ _ n H))|].
  eapply Permutation_trans; [apply Permutation_app_swap_app|]. apply Permutation_app_head.
  rewrite <- app_assoc. apply Permutation_app_swap_app.
Qed.

(** ** Groups and their markers *)

Lemma markers_in_written d gs : flat_map (markers_in d) gs = written d gs.
Proof.
  unfold written. induction gs as [|g gs IH]; [reflexivity|]. cbn. rewrite IH, filter_app, map_app. reflexivity.
Qed.

Lemma last_of_snoc l g : last_of (l ++ [g]) = [g].
Proof.
  induction l as [|x l IH]; [reflexivity|]. cbn. destruct (l ++ [g]) eqn:E; [destruct l; discriminate E|]. exact IH.
Qed.

Section Walked.
Variable all : list group.
Variable es : list event.
Hypothesis W : well_formed all es.
Let Hs := wf_sorted all es W.

Definition seen (pre : list event) (g : group) : Prop := exists e, In e pre /\ g_pos g < place e.
Definition trailing (g : group) : Prop := exists h', next es g = Some (Leave h').

Lemma next_at pre e post g : es = pre ++ e :: post -> ~ seen pre g -> g_pos g < place e -> next es g = Some e.
Proof.
  clear W Hs. intros -> Hn Hp. unfold next. induction pre as [|e' pre IH]; cbn [app find].
  - apply Nat.ltb_lt in Hp. now rewrite Hp.
  - destruct (Nat.ltb_spec (g_pos g) (place e')) as [L|L].
    + exfalso. apply Hn. exists e'. split; [now left|easy].
    + apply IH. intros (x & Hx & Lx). apply Hn. exists x. split; [now right|easy].
Qed.

Lemma seen_next pre post g : es = pre ++ post -> seen pre g -> exists e, In e pre /\ next es g = Some e.
Proof.
  clear W Hs. intros -> (e & He & Hp). unfold next. revert He. induction pre as [|x pre IH]; intros He; [destruct He|]. cbn [app find].
  destruct (Nat.ltb_spec (g_pos g) (place x)) as [L|L].
  - exists x. split; [now left|easy].
  - destruct He as [<-|He]; [lia|]. destruct (IH He) as (y & Hy & E). exists y. split; [now right|easy].
Qed.

Lemma entered_in e : In e es -> forall top h, e = Enter top h -> In (h_id h) (entered es).
Proof.
  intros H top h ->. apply in_flat_map. exists (Enter top h). split; [easy|now left].
Qed.

(** No other call enters the same node. *)
Lemma same_header top h top' h' : In (Enter top h) es -> In (Enter top' h') es -> h_id h = h_id h' -> Enter top h = Enter top' h'.
Proof.
  assert (N := wf_ids all es W). clear W Hs. induction es as [|e l IH]; [easy|]. intros H1 H2 E.
  assert (En : forall t x, In (Enter t x) l -> In (h_id x) (entered l)).
  { intros t x Hx. apply in_flat_map. exists (Enter t x). split; [easy|now left]. }
  destruct e as [t x|x].
  - cbn in N. inversion N as [|? ? N1 N2]; subst.
    destruct H1 as [H1|H1], H2 as [H2|H2].
    + congruence.
    + injection H1 as -> ->. exfalso. apply N1. rewrite E. now apply (En top').
    + injection H2 as -> ->. exfalso. apply N1. rewrite <- E. now apply (En top).
    + now apply IH.
  - cbn in N. destruct H1 as [H1|H1]; [discriminate|]. destruct H2 as [H2|H2]; [discriminate|]. now apply IH.
Qed.

(** The node is not entered before it is entered. *)
Lemma fresh pre top h post : es = pre ++ Enter top h :: post -> forall top' h', In (Enter top' h') pre -> h_id h' <> h_id h.
Proof.
  intros E top' h' H Ei. assert (N := wf_ids all es W). rewrite E in N. unfold entered in N. rewrite flat_map_app in N.
  apply in_split in H. destruct H as (a & b & ->). rewrite flat_map_app in N. cbn in N.
  rewrite <- app_assoc in N. cbn in N. apply NoDup_remove_2 in N. apply N. rewrite !in_app_iff. right. right. left. easy.
Qed.

(** ** The invariant *)

Record upto (pre : list event) (ind : nat) : Prop := {
  u_before : forall i g, nth_error all i = Some g -> i < ind -> seen pre g \/ trailing g;
  u_after : forall i g, nth_error all i = Some g -> ind <= i -> ~ seen pre g }.

Lemma upto_skip pre ind g : upto pre ind -> nth_error all ind = Some g -> trailing g -> upto pre (S ind).
Proof.
  intros [B A] Hg T. constructor.
  - intros i x Hx L. destruct (Nat.eq_dec i ind) as [->|]; [|apply (B i); [easy|lia]].
    rewrite Hg in Hx. injection Hx as <-. now right.
  - intros i x Hx L. apply (A i); [easy|lia].
Qed.

Lemma upto_next pre e ind : upto pre ind -> ind <= List.length all -> upto (pre ++ [e]) (first_from all ind (place e)).
Proof.
  intros [B A] L. constructor.
  - intros i g Hg Hi. destruct (le_lt_dec ind i) as [Hi'|Hi'].
    + left. exists e. split; [apply in_or_app; now right; left|]. now apply (first_from_spec all Hs ind (place e) i g Hg Hi').
    + destruct (B i g Hg Hi') as [(x & Hx & Lx)|]; [left|now right]. exists x. split; [apply in_or_app; now left|easy].
  - intros i g Hg Hi (x & Hx & Lx). assert (Hi' : ind <= i) by (assert (F := first_from_ge all ind (place e)); lia).
    apply in_app_or in Hx. destruct Hx as [Hx|[<-|[]]].
    + apply (A i g Hg Hi'). now exists x.
    + apply (first_from_spec all Hs ind (place e) i g Hg Hi') in Lx. lia.
Qed.

Lemma upto_done pre e ind : upto pre ind -> List.length all <= ind -> forall ind', ind <= ind' -> upto (pre ++ [e]) ind'.
Proof.
  intros [B A] L ind' L'. constructor.
  - intros i g Hg Hi. assert (i < List.length all) by (apply nth_error_Some; congruence).
    destruct (B i g Hg) as [(x & Hx & Lx)|]; [lia|left|now right]. exists x. split; [apply in_or_app; now left|easy].
  - intros i g Hg Hi. assert (i < List.length all) by (apply nth_error_Some; congruence). lia.
Qed.

(** What is directly above a node lies between the index and its position. *)
Lemma above_range pre top h post ind : es = pre ++ Enter top h :: post -> upto pre ind -> ind <= List.length all ->
  above all es h = firstn (first_from all ind (h_pos h) - ind) (skipn ind all).
Proof.
  intros E [B A] L. apply filter_range.
  - apply first_from_ge.
  - now apply first_from_le.
  - intros i g Hg. split.
    + intros H. destruct (next es g) as [[t x|x]|] eqn:N; try discriminate. apply Nat.eqb_eq in H.
      assert (Hin : In (Enter t x) es).
      { unfold next in N. apply find_some in N. apply N. }
      assert (Hx : Enter t x = Enter top h).
      { apply same_header; [easy|rewrite E; apply in_or_app; now right; left|easy]. }
      rewrite Hx in N. assert (Np : ~ seen pre g).
      { intros S. destruct (seen_next pre (Enter top h :: post) g E S) as (y & Hy & Ny). rewrite N in Ny. injection Ny as <-.
        now apply (fresh pre top h post E top h). }
      assert (Li : ind <= i).
      { destruct (le_lt_dec ind i) as [|Li]; [easy|]. destruct (B i g Hg Li) as [S|(h' & T)]; [easy|]. rewrite N in T. discriminate. }
      split; [easy|]. apply (first_from_spec all Hs ind (h_pos h) i g Hg Li).
      unfold next in N. apply find_some in N. destruct N as [_ N]. now apply Nat.ltb_lt in N.
    + intros [L1 L2]. apply (first_from_spec all Hs ind (h_pos h) i g Hg L1) in L2.
      rewrite (next_at pre (Enter top h) post g E (A i g Hg L1) L2). now apply Nat.eqb_eq.
Qed.

Definition seg (a b : nat) : list group := firstn (b - a) (skipn a all).

Lemma seg_empty a b : b <= a -> seg a b = [].
Proof. intros H. unfold seg. replace (b - a) with 0 by lia. reflexivity. Qed.

Lemma seg_snoc a b g : a <= b -> nth_error all b = Some g -> seg a (S b) = seg a b ++ [g].
Proof.
  intros L H. unfold seg. replace (S b - a) with (S (b - a)) by lia.
  assert (E : nth_error (skipn a all) (b - a) = Some g) by (rewrite nth_skipn; now replace (a + (b - a)) with b by lia).
  revert E. generalize (skipn a all) (b - a). intros l n. revert l. induction n as [|n IH]; intros [|x l] E; try discriminate.
  - cbn in E. injection E as ->. reflexivity.
  - cbn. f_equal. now apply IH.
Qed.

Lemma seg_in a b g : In g (seg a b) -> exists i, a <= i < b /\ nth_error all i = Some g.
Proof.
  intros H. unfold seg in H. apply In_nth_error in H. destruct H as (i & H).
  assert (L : i < b - a).
  { destruct (le_lt_dec (b - a) i) as [L|]; [|easy]. assert (N : nth_error (firstn (b - a) (skipn a all)) i = None).
    { apply nth_error_None. rewrite firstn_length. lia. } congruence. }
  exists (a + i). split; [lia|]. rewrite <- nth_skipn. rewrite <- H. clear H. revert i L. generalize (skipn a all) (b - a).
  intros l n. revert l. induction n as [|n IH]; intros [|x l] i L; try lia; destruct i; cbn; auto. apply IH. lia.
Qed.

Lemma between_seg d a b : markers_between all d a b = written d (seg a b).
Proof. unfold markers_between. apply markers_in_written. Qed.

Definition doc_start (h : header) (ind : nat) : nat :=
  let fin := first_from all ind (h_pos h) in if at_pos all (fin - 1) (h_doc h) then fin - 1 else fin.

Lemma above_split pre top h post ind : es = pre ++ Enter top h :: post -> upto pre ind -> ind <= List.length all ->
  let fin := first_from all ind (h_pos h) in
  let m := doc_start h ind in
  (h_doc h <> None -> fin <> 0) /\ ind <= m <= fin /\ others all es h = seg ind m /\ docs all es h = seg m fin.
Proof.
  intros E U L fin m.
  assert (Ab := above_range pre top h post ind E U L). fold fin in Ab. change (above all es h = seg ind fin) in Ab.
  assert (Lf : ind <= fin) by apply first_from_ge.
  assert (Lf' : fin <= List.length all) by now apply first_from_le.
  unfold m, doc_start. fold fin. unfold others, docs. rewrite Ab. unfold is_doc. destruct (h_doc h) as [p|] eqn:D.
  - assert (Hin : In (Enter top h) es) by (rewrite E; apply in_or_app; now right; left).
    destruct (wf_doc all es W top h p Hin D) as (g & Hg & Hp & Hmax). rewrite Ab in Hg, Hmax.
    destruct (seg_in ind fin g Hg) as (i & Li & Hi).
    destruct (nth_error all (fin - 1)) as [g'|] eqn:G; [|apply nth_error_None in G; lia].
    assert (Sn : seg ind fin = seg ind (fin - 1) ++ [g']).
    { replace fin with (S (fin - 1)) at 1 by lia. apply seg_snoc; [lia|easy]. }
    assert (Ei : i = fin - 1).
    { destruct (Nat.eq_dec i (fin - 1)) as [|Ne]; [easy|]. assert (Q := sorted_nth all Hs i (fin - 1) g g' ltac:(lia) Hi G).
      assert (Q' : g_pos g' <= p). { apply Hmax. rewrite Sn. apply in_or_app. now right; left. } lia. }
    subst i. rewrite G in Hi. injection Hi as ->.
    unfold at_pos. rewrite G, Hp, Nat.eqb_refl.
    split; [lia|]. split; [lia|]. rewrite Sn, !filter_app. cbn [filter]. rewrite Hp, Nat.eqb_refl. cbn [negb].
    assert (Hlt : forall x, In x (seg ind (fin - 1)) -> Nat.eqb (g_pos x) p = false).
    { intros x Hx. destruct (seg_in _ _ _ Hx) as (j & Lj & Hj). apply Nat.eqb_neq.
      assert (Q := sorted_nth all Hs j (fin - 1) x g ltac:(lia) Hj G). lia. }
    split.
    + rewrite app_nil_r. clear - Hlt. induction (seg ind (fin - 1)) as [|x l IH]; [reflexivity|]. cbn [filter].
      rewrite (Hlt x (or_introl eq_refl)). cbn. f_equal. apply IH. intros y Hy. apply Hlt. now right.
    + replace (seg (fin - 1) fin) with [g].
      * clear - Hlt. induction (seg ind (fin - 1)) as [|x l IH]; [reflexivity|]. cbn [filter app].
        rewrite (Hlt x (or_introl eq_refl)). apply IH. intros y Hy. apply Hlt. now right.
      * replace fin with (S (fin - 1)) at 2 by lia. rewrite (seg_snoc (fin - 1) (fin - 1) g); [|lia|easy].
        now rewrite seg_empty by lia.
  - assert (Ef : at_pos all (fin - 1) None = false) by (unfold at_pos; now destruct (nth_error all (fin - 1))).
    rewrite Ef. split; [easy|]. split; [lia|]. split.
    + clear. induction (seg ind fin) as [|x l IH]; [reflexivity|]. cbn [filter negb]. f_equal. exact IH.
    + rewrite (seg_empty fin fin) by lia. clear. induction (seg ind fin) as [|x l IH]; [reflexivity|]. exact IH.
Qed.

Lemma closest_seg h a m : a <= m <= List.length all -> others all es h = seg a m ->
  closest all es h = (if Nat.ltb a m then seg (m - 1) m else []) /\
  farther all es h = (if Nat.ltb a m then seg a (m - 1) else []).
Proof.
  intros L E. unfold closest, farther. rewrite E. destruct (Nat.ltb_spec a m) as [H|H].
  - destruct (nth_error all (m - 1)) as [g|] eqn:G; [|apply nth_error_None in G; lia].
    replace (seg a m) with (seg a (m - 1) ++ [g]).
    2: { replace m with (S (m - 1)) at 2 by lia. symmetry. apply seg_snoc; [lia|easy]. }
    rewrite last_of_snoc, removelast_last. split; [|easy].
    replace m with (S (m - 1)) at 2 by lia. rewrite (seg_snoc (m - 1) (m - 1) g); [|lia|easy]. now rewrite seg_empty by lia.
  - rewrite seg_empty by lia. easy.
Qed.

Lemma above_none pre top h post ind : es = pre ++ Enter top h :: post -> upto pre ind -> List.length all <= ind ->
  above all es h = [].
Proof.
  intros E [B A] L. rewrite (above_range pre top h post (List.length all) E).
  - rewrite skipn_all. apply firstn_nil.
  - constructor.
    + intros i g Hg Hi. apply (B i g Hg). lia.
    + intros i g Hg Hi. assert (i < List.length all) by (apply nth_error_Some; congruence). lia.
  - lia.
Qed.

(** ** The states of the visitor *)

(** What the nodes get before any marker is moved to the package. *)
Fixpoint assign (o : option header) (l : list event) : list (nat * list marker) :=
  match l with
  | [] => []
  | Leave _ :: l' => assign o l'
  | Enter _ h :: l' =>
      match h_kind h with
      | KType => (h_id h, of_decl all es o ++ own all es h) :: assign None l'
      | KField => (h_id h, own all es h) :: assign o l'
      | KDecl _ _ => assign (if single h then Some h else o) l'
      | KFile | KOther => assign o l'
      end
  end.

Definition open_step (o : option header) (e : event) : option header :=
  match e with
  | Enter _ h => if single h then Some h else if is_type h then None else o
  | Leave _ => o
  end.

Lemma assign_app l' : forall l o, assign o (l ++ l') = assign o l ++ assign (fold_left open_step l o) l'.
Proof.
  induction l as [|[top h|h] l IH]; intros o; [reflexivity| |apply IH]. cbn [app assign fold_left open_step]. unfold single, is_type.
  destruct (h_kind h) as [|[] []| | |] eqn:K; cbn [app]; rewrite ?IH; reflexivity.
Qed.

Lemma assign_snoc pre e : assign None (pre ++ [e]) = assign None pre ++ assign (open_decl pre) [e].
Proof. apply (assign_app [e] pre None). Qed.

Record inv (pre : list event) (s : state) : Prop := {
  i_upto : upto pre (s_ind s);
  i_last : forall p, s_last s = Some p -> exists top h, In (Enter top h) pre /\ h_trail h = Some p;
  i_decl : s_decl s = of_decl all es (open_decl pre);
  i_pkg : s_pkg s = flat_map (to_package all es) pre;
  i_nodes : s_nodes s = assign None pre;
  i_nodup : NoDup (map fst (s_nodes s));
  i_field : forall top h, In (Enter top h) pre -> h_kind h = KField -> mget Nat.eqb (s_nodes s) (h_id h) = Some (own all es h);
  i_type : forall p top h q, pre = p ++ Enter top h :: q -> h_kind h = KType ->
    mget Nat.eqb (s_nodes s) (h_id h) = Some (of_decl all es (open_decl p) ++ own all es h);
  i_keys : forall id l, mget Nat.eqb (s_nodes s) id = Some l ->
    exists top h, In (Enter top h) pre /\ h_id h = id /\ (h_kind h = KField \/ h_kind h = KType) }.

Lemma open_snoc pre e : open_decl (pre ++ [e]) =
  match e with Enter _ h => if single h then Some h else if is_type h then None else open_decl pre | Leave _ => open_decl pre end.
Proof. unfold open_decl. rewrite fold_left_app. reflexivity. Qed.

(** Nothing but the index changes. *)
Lemma inv_leave pre h post s ind : es = pre ++ Leave h :: post -> inv pre s -> upto (pre ++ [Leave h]) ind ->
  inv (pre ++ [Leave h]) (with_ind s ind).
Proof.
  intros E [U L D P M N F T K] U'. constructor; cbn [s_ind s_decl s_last s_pkg s_nodes with_ind]; try easy.
  - intros p Hp. destruct (L p Hp) as (t & x & Hx & Ht). exists t, x. split; [apply in_or_app; now left|easy].
  - now rewrite open_snoc.
  - rewrite flat_map_snoc. cbn [to_package]. now rewrite app_nil_r.
  - rewrite assign_snoc, M. cbn. now rewrite app_nil_r.
  - intros t x Hx Kx. apply in_app_or in Hx. destruct Hx as [Hx|[Hx|[]]]; [now apply (F t)|discriminate].
  - intros p t x q Eq Kx. symmetry in Eq. apply snoc_inv in Eq. destruct Eq as [(_ & _ & Eq)|(q' & -> & Eq)]; [discriminate|].
    now apply (T p t x q').
  - intros id l H. destruct (K id l H) as (t & x & Hx & Hk). exists t, x. split; [apply in_or_app; now left|easy].
Qed.

Lemma inv_enter pre top h post s ind s1 :
  es = pre ++ Enter top h :: post -> inv pre s -> upto (pre ++ [Enter top h]) ind ->
  s_decl s1 = s_decl s -> s_nodes s1 = s_nodes s ->
  (forall p, s_last s1 = Some p -> exists t x, In (Enter t x) (pre ++ [Enter top h]) /\ h_trail x = Some p) ->
  s_pkg s1 = s_pkg s ++ (if top then written false (farther all es h) else []) ->
  inv (pre ++ [Enter top h]) (with_ind (associate top h (written false (closest all es h)) (written true (docs all es h)) s1) ind).
Proof.
  intros E [U L D P M N F T K] U' Ed En El Ep.
  assert (Fr : mget Nat.eqb (s_nodes s) (h_id h) = None).
  { destruct (mget Nat.eqb (s_nodes s) (h_id h)) as [l|] eqn:G; [|easy]. destruct (K _ _ G) as (t & x & Hx & Ei & _).
    exfalso. now apply (fresh pre top h post E t x). }
  assert (Hne : forall t x, In (Enter t x) pre -> h_id x <> h_id h) by apply (fresh pre top h post E).
  assert (Kmon : forall id l, mget Nat.eqb (s_nodes s) id = Some l ->
    exists t x, In (Enter t x) (pre ++ [Enter top h]) /\ h_id x = id /\ (h_kind x = KField \/ h_kind x = KType)).
  { intros id l H. destruct (K id l H) as (t & x & Hx & Hk). exists t, x. split; [apply in_or_app; now left|easy]. }
  assert (Own : written false (closest all es h) ++ written true (docs all es h) = own all es h) by reflexivity.
  destruct (h_kind h) as [|paren typ| | |] eqn:Kh.
  - (* file *)
    unfold associate. rewrite Kh. constructor; cbn [s_ind s_decl s_last s_pkg s_nodes with_ind]; try easy.
    + rewrite open_snoc, Ed. unfold single, is_type. now rewrite Kh.
    + rewrite flat_map_snoc. cbn [to_package]. rewrite Kh, Ep, P, <- app_assoc. reflexivity.
    + rewrite En, M, assign_snoc. cbn [assign]. rewrite Kh. now rewrite app_nil_r.
    + now rewrite En.
    + intros t x Hx Kx. rewrite En. apply in_app_or in Hx. destruct Hx as [Hx|[Hx|[]]]; [now apply (F t)|]. injection Hx as <- <-. congruence.
    + intros p t x q Eq Kx. rewrite En. symmetry in Eq. apply snoc_inv in Eq. destruct Eq as [(_ & _ & Eq)|(q' & -> & Eq)].
      * injection Eq as -> ->. congruence.
      * now apply (T p t x q').
    + rewrite En. exact Kmon.
  - (* declaration *)
    unfold associate. rewrite Kh. destruct (paren || negb typ) eqn:S.
    + assert (Sg : single h = false) by (unfold single; rewrite Kh; destruct paren, typ; easy).
      constructor; cbn [s_ind s_decl s_last s_pkg s_nodes with_ind]; try easy.
      * rewrite open_snoc, Sg, Ed. unfold is_type. now rewrite Kh.
      * rewrite flat_map_snoc. cbn [to_package]. rewrite Kh, S, Ep, P, <- app_assoc. reflexivity.
      * rewrite En, M, assign_snoc. cbn [assign]. rewrite Kh. now rewrite app_nil_r.
      * now rewrite En.
      * intros t x Hx Kx. rewrite En. apply in_app_or in Hx. destruct Hx as [Hx|[Hx|[]]]; [now apply (F t)|]. injection Hx as <- <-. congruence.
      * intros p t x q Eq Kx. rewrite En. symmetry in Eq. apply snoc_inv in Eq. destruct Eq as [(_ & _ & Eq)|(q' & -> & Eq)].
        -- injection Eq as -> ->. congruence.
        -- now apply (T p t x q').
      * rewrite En. exact Kmon.
    + assert (Sg : single h = true) by (unfold single; rewrite Kh; destruct paren, typ; easy).
      constructor; cbn [s_ind s_decl s_last s_pkg s_nodes with_ind]; try easy.
      * rewrite open_snoc, Sg, Ed, D. cbn. rewrite (wf_decl all es W pre top h post E Sg). reflexivity.
      * rewrite flat_map_snoc. cbn [to_package]. rewrite Kh, S, Ep, P, app_nil_r. reflexivity.
      * rewrite En, M, assign_snoc. cbn [assign]. rewrite Kh. now rewrite app_nil_r.
      * now rewrite En.
      * intros t x Hx Kx. rewrite En. apply in_app_or in Hx. destruct Hx as [Hx|[Hx|[]]]; [now apply (F t)|]. injection Hx as <- <-. congruence.
      * intros p t x q Eq Kx. rewrite En. symmetry in Eq. apply snoc_inv in Eq. destruct Eq as [(_ & _ & Eq)|(q' & -> & Eq)].
        -- injection Eq as -> ->. congruence.
        -- now apply (T p t x q').
      * rewrite En. exact Kmon.
  - (* type *)
    unfold associate, append. rewrite Kh, En, Fr. cbn [app]. rewrite Own. constructor; cbn [s_ind s_decl s_last s_pkg s_nodes with_ind]; try easy.
    + rewrite open_snoc. unfold single, is_type. now rewrite Kh.
    + rewrite flat_map_snoc. cbn [to_package]. rewrite Kh, Ep, P, app_nil_r. reflexivity.
    + rewrite (mset_fresh _ _ _ Fr), assign_snoc, M, Ed, D. cbn [assign]. now rewrite Kh.
    + now apply mset_nodup; [apply Nat.eqb_eq|].
    + intros t x Hx Kx. apply in_app_or in Hx. destruct Hx as [Hx|[Hx|[]]]; [|injection Hx as <- <-; congruence].
      rewrite (mget_mset_ne _ _ _ Nat.eqb_eq) by now apply (Hne t). now apply (F t).
    + intros p t x q Eq Kx. symmetry in Eq. apply snoc_inv in Eq. destruct Eq as [(_ & Eq' & Eq)|(q' & -> & Eq)].
      * injection Eq as -> ->. subst p. rewrite (mget_mset_eq _ _ _ Nat.eqb_eq), Ed, D. reflexivity.
      * rewrite (mget_mset_ne _ _ _ Nat.eqb_eq); [now apply (T p t x q')|]. apply (Hne t). rewrite Eq. apply in_or_app. now right; left.
    + intros id l H. destruct (Nat.eq_dec id (h_id h)) as [->|Ne].
      * exists top, h. split; [apply in_or_app; now right; left|]. split; [easy|now right].
      * rewrite (mget_mset_ne _ _ _ Nat.eqb_eq) in H by easy. now apply (Kmon id l).
  - (* field *)
    unfold associate, append. rewrite Kh, En, Fr. cbn [app]. rewrite Own. constructor; cbn [s_ind s_decl s_last s_pkg s_nodes with_ind]; try easy.
    + rewrite open_snoc, Ed. unfold single, is_type. now rewrite Kh.
    + rewrite flat_map_snoc. cbn [to_package]. rewrite Kh, Ep, P, app_nil_r. reflexivity.
    + rewrite (mset_fresh _ _ _ Fr), assign_snoc, M. cbn [assign]. now rewrite Kh.
    + now apply mset_nodup; [apply Nat.eqb_eq|].
    + intros t x Hx Kx. apply in_app_or in Hx. destruct Hx as [Hx|[Hx|[]]].
      * rewrite (mget_mset_ne _ _ _ Nat.eqb_eq) by now apply (Hne t). now apply (F t).
      * injection Hx as <- <-. now rewrite (mget_mset_eq _ _ _ Nat.eqb_eq).
    + intros p t x q Eq Kx. symmetry in Eq. apply snoc_inv in Eq. destruct Eq as [(_ & Eq' & Eq)|(q' & -> & Eq)].
      * injection Eq as -> ->. congruence.
      * rewrite (mget_mset_ne _ _ _ Nat.eqb_eq); [now apply (T p t x q')|]. apply (Hne t). rewrite Eq. apply in_or_app. now right; left.
    + intros id l H. destruct (Nat.eq_dec id (h_id h)) as [->|Ne].
      * exists top, h. split; [apply in_or_app; now right; left|]. split; [easy|now left].
      * rewrite (mget_mset_ne _ _ _ Nat.eqb_eq) in H by easy. now apply (Kmon id l).
  - (* other *)
    unfold associate. rewrite Kh. constructor; cbn [s_ind s_decl s_last s_pkg s_nodes with_ind]; try easy.
    + rewrite open_snoc, Ed. unfold single, is_type. now rewrite Kh.
    + rewrite flat_map_snoc. cbn [to_package]. rewrite Kh, Ep, P, <- app_assoc. reflexivity.
    + rewrite En, M, assign_snoc. cbn [assign]. rewrite Kh. now rewrite app_nil_r.
    + now rewrite En.
    + intros t x Hx Kx. rewrite En. apply in_app_or in Hx. destruct Hx as [Hx|[Hx|[]]]; [now apply (F t)|]. injection Hx as <- <-. congruence.
    + intros p t x q Eq Kx. rewrite En. symmetry in Eq. apply snoc_inv in Eq. destruct Eq as [(_ & _ & Eq)|(q' & -> & Eq)].
      * injection Eq as -> ->. congruence.
      * now apply (T p t x q').
    + rewrite En. exact Kmon.
Qed.

Lemma upto_same pre e ind : upto pre ind -> place e = 0 -> upto (pre ++ [e]) ind.
Proof.
  intros [B A] Z. constructor.
  - intros i g Hg Hi. destruct (B i g Hg Hi) as [(x & Hx & Lx)|]; [left|now right]. exists x. split; [apply in_or_app; now left|easy].
  - intros i g Hg Hi (x & Hx & Lx). apply in_app_or in Hx. destruct Hx as [Hx|[<-|[]]].
    + apply (A i g Hg Hi). now exists x.
    + rewrite Z in Lx. lia.
Qed.

Lemma visit_step pre e post s : es = pre ++ e :: post -> inv pre s ->
  exists s', visit all e s = Some s' /\ inv (pre ++ [e]) s'.
Proof.
  intros E I. assert (U := i_upto pre s I). destruct e as [top h|h].
  - cbn [visit].
    set (ind := match s_last s with Some _ => _ | None => _ end).
    assert (Ui : upto pre ind).
    { unfold ind. destruct (s_last s) as [p|] eqn:Lp; [|easy].
      destruct (Nat.ltb_spec (s_ind s) (List.length all)) as [L|L]; [|easy]. cbn [andb].
      unfold at_pos. destruct (nth_error all (s_ind s)) as [g|] eqn:G; [|easy].
      destruct (Nat.eqb_spec (g_pos g) p) as [<-|]; [|easy].
      apply (upto_skip pre (s_ind s) g U G). destruct (i_last pre s I _ Lp) as (t & x & Hx & Ht).
      apply (wf_trail all es W t x g); [rewrite E; apply in_or_app; now left|now apply nth_error_In in G|easy]. }
    assert (Lst : forall p, h_trail h = Some p -> exists t x, In (Enter t x) (pre ++ [Enter top h]) /\ h_trail x = Some p).
    { intros p Hp. exists top, h. split; [apply in_or_app; now right; left|easy]. }
    clearbody ind. destruct (Nat.ltb_spec ind (List.length all)) as [L|L].
    + set (fin := first_from all ind (h_pos h)).
      destruct (above_split pre top h post ind E Ui ltac:(lia)) as (Z & Lm & Eo & Ed). fold fin in Z, Lm, Ed.
      assert (Lfin : fin <= List.length all) by (apply first_from_le; lia).
      destruct (closest_seg h ind (doc_start h ind) ltac:(lia) Eo) as (Ec & Ef).
      assert (Goal1 : forall s1, s1 = mkState ind (s_decl s) (h_trail h)
           (s_pkg s ++ (if (if Nat.ltb ind (doc_start h ind) then top else false) then markers_between all false ind (doc_start h ind - 1) else [])) (s_nodes s) ->
         inv (pre ++ [Enter top h]) (with_ind (associate top h
           (if Nat.ltb ind (doc_start h ind) then markers_between all false (doc_start h ind - 1) (doc_start h ind) else [])
           (markers_between all true (doc_start h ind) fin) s1) fin)).
      { intros s1 ->. rewrite !between_seg.
        replace (if Nat.ltb ind (doc_start h ind) then written false (seg (doc_start h ind - 1) (doc_start h ind)) else [])
          with (written false (closest all es h)) by (rewrite Ec; now destruct (Nat.ltb ind (doc_start h ind))).
        rewrite <- Ed. apply (inv_enter pre top h post s); try easy.
        - apply (upto_next pre (Enter top h) ind Ui). lia.
        - cbn [s_pkg]. rewrite Ef. destruct (Nat.ltb ind (doc_start h ind)), top; easy. }
      change (if at_pos all (fin - 1) (h_doc h) then fin - 1 else fin) with (doc_start h ind).
      destruct (h_doc h) as [p|] eqn:Dh.
      * destruct fin as [|f] eqn:Fe; [now exfalso; apply Z|]. eexists. split; [reflexivity|]. now apply Goal1.
      * destruct fin as [|f] eqn:Fe; eexists; (split; [reflexivity|]); now apply Goal1.
    + eexists. split; [reflexivity|].
      assert (An := above_none pre top h post ind E Ui L).
      assert (Ec : closest all es h = []) by (unfold closest, others; now rewrite An).
      assert (Ef : farther all es h = []) by (unfold farther, others; now rewrite An).
      assert (Ed : docs all es h = []) by (unfold docs; now rewrite An).
      assert (G := inv_enter pre top h post s (S ind) s E I). rewrite Ec, Ed in G. apply G; try easy.
      * apply (upto_done pre _ ind Ui L). lia.
      * intros p Hp. destruct (i_last pre s I p Hp) as (t & x & Hx & Ht). exists t, x. split; [apply in_or_app; now left|easy].
      * rewrite Ef. cbn. destruct top; now rewrite app_nil_r.
  - cbn [visit]. unfold is_file. assert (Hw : s = with_ind s (s_ind s)) by now destruct s.
    destruct (h_kind h) eqn:Kh.
    1: { exists s. split; [easy|]. rewrite Hw. apply (inv_leave pre h post s _ E I). apply upto_same; [easy|]. cbn. now rewrite Kh. }
    all: destruct (Nat.ltb_spec (s_ind s) (List.length all)) as [L|L]; eexists; (split; [reflexivity|]).
    all: try (rewrite Hw; apply (inv_leave pre h post s _ E I); apply (upto_done pre _ (s_ind s) U L); lia).
    all: apply (inv_leave pre h post s _ E I).
    all: replace (h_end h) with (place (Leave h)) by (cbn; now rewrite Kh); apply upto_next; [easy|lia].
Qed.

Lemma visits_inv post : forall pre s, es = pre ++ post -> inv pre s -> exists s', visits all post s = Some s' /\ inv es s'.
Proof.
  induction post as [|e post IH]; intros pre s E I.
  - exists s. split; [easy|]. rewrite app_nil_r in E. now rewrite E at 1.
  - destruct (visit_step pre e post s E I) as (s1 & H1 & I1). cbn. rewrite H1. apply (IH (pre ++ [e])); [|easy].
    now rewrite <- app_assoc.
Qed.

Lemma inv_start : inv [] no_state.
Proof.
  constructor; cbn [s_ind s_decl s_last s_pkg s_nodes with_ind]; try easy.
  - constructor; [intros i g _ H; cbn in H; lia|]. intros i g Hg _ (e & He & _). destruct He.
  - constructor.
  - intros p t h q H. destruct p; discriminate.
Qed.

Lemma visits_all : exists s, visits all es no_state = Some s /\ inv es s.
Proof. apply (visits_inv es []); [easy|apply inv_start]. Qed.

(** ** The end of the file *)

Lemma below_range ind : upto es ind -> markers_between all false ind (List.length all) = written false (below all es).
Proof.
  intros [B A]. rewrite between_seg. f_equal. symmetry. unfold below.
  assert (F : forall b, (forall i g, nth_error all i = Some g -> (match next es g with None => true | Some _ => false end) = true <-> b <= i < List.length all) ->
    b <= List.length all -> filter (fun g => match next es g with None => true | Some _ => false end) all = seg b (List.length all)).
  { intros b H Lb. apply filter_range; [easy|lia|easy]. }
  assert (Sn : forall g, seen es g <-> exists e, next es g = Some e).
  { intros g. split.
    - intros H. destruct (seen_next es [] g (eq_sym (app_nil_r es)) H) as (e & _ & He). now exists e.
    - intros (e & He). unfold next in He. apply find_some in He. exists e. split; [easy|]. now apply Nat.ltb_lt. }
  destruct (le_lt_dec ind (List.length all)) as [L|L].
  - apply F; [|easy]. intros i g Hg. assert (i < List.length all) by (apply nth_error_Some; congruence).
    destruct (le_lt_dec ind i) as [Li|Li].
    + assert (Hn := A i g Hg Li). rewrite Sn in Hn. destruct (next es g) as [e|]; [exfalso; apply Hn; now exists e|]. easy.
    + assert (exists e, next es g = Some e) as (e & ->). { destruct (B i g Hg Li) as [H0|(h & ->)]; [now apply Sn|now exists (Leave h)]. }
      split; [discriminate|lia].
  - rewrite (F (List.length all)); [|intros i g Hg|easy].
    + now rewrite !seg_empty by lia.
    + assert (Li : i < List.length all) by (apply nth_error_Some; congruence).
      assert (exists e, next es g = Some e) as (e & ->). { destruct (B i g Hg ltac:(lia)) as [H0|(h & ->)]; [now apply Sn|now exists (Leave h)]. }
      split; [discriminate|lia].
Qed.

(** ** Nothing is taken twice *)

Lemma assign_shares l : forall o,
  (forall p top h q, l = p ++ Enter top h :: q -> single h = true -> fold_left open_step p o = None) ->
  Permutation (flat_map snd (assign o l) ++ flat_map (to_package all es) l ++ of_decl all es (fold_left open_step l o))
              (of_decl all es o ++ flat_map (share all es) l).
Proof.
  induction l as [|e l IH]; intros o Hd; cbn [assign flat_map fold_left].
  - now rewrite app_nil_r.
  - assert (Hd' : forall p top h q, l = p ++ Enter top h :: q -> single h = true -> fold_left open_step p (open_step o e) = None).
    { intros p top h q -> Hh. apply (Hd (e :: p) top h q); easy. }
    specialize (IH _ Hd'). destruct e as [top h|h]; [|exact IH]. cbn [open_step] in *. unfold share at 1.
    assert (K : single h = match h_kind h with KDecl false true => true | _ => false end) by reflexivity.
    assert (Kt : is_type h = match h_kind h with KType => true | _ => false end) by reflexivity.
    assert (Ho : single h = true -> o = None) by (intros Hh; apply (Hd [] top h l); easy).
    destruct (h_kind h) eqn:Kh; rewrite ?K, ?Kt in *.
    + rewrite app_nil_r. now apply perm_one.
    + destruct paren, typ; cbv iota in *; rewrite ?app_nil_r; try now apply perm_one.
      rewrite (Ho eq_refl). cbn [of_decl app] in *. rewrite <- (app_assoc (to_package all es (Enter top h)) (own all es h)). now apply (perm_one _ _ _ []).
    + cbn [flat_map snd of_decl app] in *. rewrite <- !app_assoc. apply Permutation_app_head.
      rewrite (app_assoc (to_package all es (Enter top h)) (own all es h)), (app_assoc (own all es h)).
      rewrite (app_assoc (to_package all es (Enter top h)) (flat_map (to_package all es) l)). now apply (perm_two _ _ _ []).
    + cbn [flat_map snd]. now apply perm_two.
    + rewrite app_nil_r. now apply perm_one.
Qed.
End Walked.
