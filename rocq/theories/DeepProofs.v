(** * Heap lemmas for the generated DeepCopy methods *)

From Coq Require Import String List Bool Arith Permutation Lia.
Import ListNotations.
From Verif Require Import GoLib DeepModel DeepSpec.
Open Scope string_scope.
Open Scope nat_scope.
Open Scope list_scope.

(** ** Lists *)

Lemma set_nth_length A i (x : A) l : List.length (set_nth i x l) = List.length l.
Proof.
  unfold set_nth. rewrite app_length, firstn_length.
  destruct (skipn i l) as [|y r] eqn:E.
  - assert (List.length (skipn i l) = 0) by now rewrite E.
    rewrite skipn_length in H. cbn. lia.
  - assert (List.length (skipn i l) = S (List.length r)) by now rewrite E.
    rewrite skipn_length in H. cbn. lia.
Qed.

Lemma set_nth_eq A i (x : A) l : i < List.length l -> nth_error (set_nth i x l) i = Some x.
Proof.
  intros H. unfold set_nth. rewrite nth_error_app2 by (rewrite firstn_length; lia).
  rewrite firstn_length. replace (i - Nat.min i (List.length l)) with 0 by lia.
  destruct (skipn i l) eqn:E; [|easy].
  assert (List.length (skipn i l) = 0) by now rewrite E.
  rewrite skipn_length in H0. lia.
Qed.

Lemma set_nth_ne A i j (x : A) l : i <> j -> nth_error (set_nth i x l) j = nth_error l j.
Proof.
  intros H. unfold set_nth.
  rewrite <- (firstn_skipn i l) at 3.
  destruct (skipn i l) as [|y r] eqn:E.
  - now rewrite !app_nil_r.
  - destruct (Nat.lt_ge_cases j (List.length (firstn i l))).
    + now rewrite !nth_error_app1.
    + rewrite !nth_error_app2 by easy.
      rewrite firstn_length in *.
      assert (List.length (skipn i l) = S (List.length r)) by now rewrite E.
      rewrite skipn_length in H1.
      destruct (j - Nat.min i (List.length l)) eqn:E2; [lia|easy].
Qed.

Lemma set_nth_app A (x y : A) l r : set_nth (List.length l) x (l ++ y :: r) = l ++ x :: r.
Proof.
  unfold set_nth. rewrite firstn_app, firstn_all, Nat.sub_diag, firstn_O, app_nil_r.
  now rewrite skipn_app, skipn_all, Nat.sub_diag.
Qed.

Lemma nth_split_eq A i (x : A) l :
  nth_error l i = Some x -> l = firstn i l ++ x :: skipn (S i) l.
Proof.
  revert i. induction l as [|y l IH]; intros [|i] H; try discriminate H.
  - now injection H as ->.
  - cbn. f_equal. now apply IH.
Qed.

(** ** Paths *)

Lemma get_app v p q :
  get v (p ++ q) = match get v p with Some w => get w q | None => None end.
Proof.
  revert v. induction p as [|i p IH]; intros v; cbn; [easy|].
  destruct v; try easy. destruct (nth_error vs i); [apply IH|easy].
Qed.

Lemma put_app v p q w :
  put v (p ++ q) w =
  match get v p with
  | Some x => match put x q w with Some x' => put v p x' | None => None end
  | None => None
  end.
Proof.
  revert v. induction p as [|i p IH]; intros v; cbn.
  - now destruct (put v q w).
  - destruct v; try easy. destruct (nth_error vs i) as [x|]; [|easy].
    rewrite IH. destruct (get x p) as [y|]; [|easy].
    now destruct (put y q w).
Qed.

Lemma get_put v p w v' : put v p w = Some v' -> get v' p = Some w.
Proof.
  revert v v'. induction p as [|i p IH]; intros v v' H; cbn in *.
  - now injection H as ->.
  - destruct v; try discriminate H. destruct (nth_error vs i) as [x|] eqn:E; [|discriminate H].
    destruct (put x p w) as [x'|] eqn:E2; [|discriminate H]. injection H as <-.
    rewrite set_nth_eq; [eauto|]. apply nth_error_Some. congruence.
Qed.

Lemma put_some v p x w : get v p = Some x -> exists v', put v p w = Some v'.
Proof.
  revert v. induction p as [|i p IH]; intros v H; cbn in *; [eauto|].
  destruct v; try discriminate H. destruct (nth_error vs i) as [y|]; [|discriminate H].
  destruct (IH _ H) as (y' & ->). eauto.
Qed.

Lemma put_get v p w v' : put v p w = Some v' -> exists x, get v p = Some x.
Proof.
  revert v v'. induction p as [|i p IH]; intros v v' H; cbn in *; [eauto|].
  destruct v; try discriminate H. destruct (nth_error vs i) as [y|]; [|discriminate H].
  destruct (put y p w) as [y'|] eqn:E; [|discriminate H]. eauto.
Qed.

Lemma set_nth_twice A i (x y : A) l : set_nth i y (set_nth i x l) = set_nth i y l.
Proof.
  revert i. induction l as [|z l IH]; intros [|i]; try easy.
  unfold set_nth in *. cbn. f_equal. apply IH.
Qed.

Lemma put_put v p w1 w2 v1 : put v p w1 = Some v1 -> put v1 p w2 = put v p w2.
Proof.
  revert v v1. induction p as [|i p IH]; intros v v1 H; cbn in *; [easy|].
  destruct v; try discriminate H. destruct (nth_error vs i) as [y|] eqn:E; [|discriminate H].
  destruct (put y p w1) as [y'|] eqn:E2; [|discriminate H]. injection H as <-.
  rewrite set_nth_eq by (apply nth_error_Some; congruence).
  rewrite (IH _ _ E2). destruct (put y p w2); [|easy]. now rewrite set_nth_twice.
Qed.

Lemma set_nth_same A i (x : A) l : nth_error l i = Some x -> set_nth i x l = l.
Proof.
  revert i. induction l as [|y l IH]; intros [|i] H; try discriminate H.
  - now injection H as ->.
  - unfold set_nth in *. cbn. f_equal. now apply IH.
Qed.

Lemma put_same v p w : get v p = Some w -> put v p w = Some v.
Proof.
  revert v. induction p as [|i p IH]; intros v H; cbn in *; [easy|].
  destruct v; try discriminate H. destruct (nth_error vs i) as [y|] eqn:E; [|discriminate H].
  rewrite (IH _ H). now rewrite set_nth_same.
Qed.

(** ** Heap changes *)

(** [h'] is [h] with new cells added and [w] stored at [b]. *)
Definition upd_to (h : heap) (b : addr) (w : val) (h' : heap) : Prop :=
  List.length h <= List.length h' /\
  (forall l, l < List.length h -> l <> fst b -> nth_error h' l = nth_error h l) /\
  (exists c c', nth_error h (fst b) = Some c /\ nth_error h' (fst b) = Some c' /\
                put c (snd b) w = Some c').

Lemma upd_changes h b w h' : upd_to h b w h' -> changes_only h b h'.
Proof.
  intros (H1 & H2 & c & c' & Hc & Hc' & Hp). split; [easy|]. split; [easy|].
  now exists c, c', w.
Qed.

Lemma upd_read h b w h' : upd_to h b w h' -> hread h' b = Some w.
Proof.
  intros (_ & _ & c & c' & Hc & Hc' & Hp). unfold hread. rewrite Hc'. eapply get_put; eauto.
Qed.

Lemma upd_loc h (b : addr) w h' : upd_to h b w h' -> fst b < List.length h.
Proof. intros (_ & _ & c & c' & Hc & _). apply nth_error_Some. congruence. Qed.

Lemma upd_len h b w h' : upd_to h b w h' -> List.length h <= List.length h'.
Proof. now intros (H & _). Qed.

Lemma upd_other h (b : addr) w h' l :
  upd_to h b w h' -> l < List.length h -> l <> fst b -> nth_error h' l = nth_error h l.
Proof. intros (_ & H & _). apply H. Qed.

Lemma hread_loc h (a : addr) v : hread h a = Some v -> fst a < List.length h.
Proof.
  unfold hread. intros H. apply nth_error_Some. now destruct (nth_error h (fst a)).
Qed.

Lemma hread_same h h' (a : addr) :
  nth_error h' (fst a) = nth_error h (fst a) -> hread h' a = hread h a.
Proof. unfold hread. now intros ->. Qed.

Lemma write_upd h b v w : hread h b = Some v -> exists h', hwrite h b w = Some h' /\ upd_to h b w h'.
Proof.
  intros H. assert (Hl := hread_loc _ _ _ H). unfold hread in H. unfold hwrite.
  destruct (nth_error h (fst b)) as [c|] eqn:Hc; [|discriminate H].
  destruct (put_some _ _ _ w H) as (c' & Hp). rewrite Hp.
  eexists. split; [reflexivity|].
  split; [now rewrite set_nth_length|]. split.
  - intros l _ Hn. apply set_nth_ne. congruence.
  - exists c, c'. split; [easy|]. split; [|easy]. now apply set_nth_eq.
Qed.

Lemma upd_upd h b w1 h1 w2 h2 :
  upd_to h b w1 h1 -> upd_to h1 b w2 h2 -> upd_to h b w2 h2.
Proof.
  intros (L1 & F1 & c & c1 & Hc & Hc1 & P1) (L2 & F2 & d & c2 & Hd & Hc2 & P2).
  split; [lia|]. split.
  - intros l Hl Hn. rewrite F2 by (lia || easy). now apply F1.
  - exists c, c2. split; [easy|]. split; [easy|].
    replace d with c1 in * by congruence. rewrite <- P2. symmetry. eapply put_put; eauto.
Qed.

Lemma upd_inside h (b : addr) i vs x w h' :
  hread h b = Some (VAgg vs) -> nth_error vs i = Some x ->
  upd_to h (fst b, snd b ++ [i]) w h' -> upd_to h b (VAgg (set_nth i w vs)) h'.
Proof.
  intros Hr Hx (L & F & c & c' & Hc & Hc' & P). cbn [fst snd] in *.
  split; [easy|]. split; [easy|]. exists c, c'. split; [easy|]. split; [easy|].
  unfold hread in Hr. rewrite Hc in Hr. rewrite put_app, Hr in P. cbn in P.
  now rewrite Hx in P.
Qed.

Lemma read_inside h (b : addr) i vs x :
  hread h b = Some (VAgg vs) -> nth_error vs i = Some x ->
  hread h (fst b, snd b ++ [i]) = Some x.
Proof.
  unfold hread. cbn [fst snd]. destruct (nth_error h (fst b)) as [c|]; [|easy].
  intros H Hx. rewrite get_app, H. cbn. now rewrite Hx.
Qed.

Lemma grows_refl h : grows h h.
Proof. now split. Qed.

Lemma grows_trans h1 h2 h3 : grows h1 h2 -> grows h2 h3 -> grows h1 h3.
Proof.
  intros (L1 & F1) (L2 & F2). split; [lia|]. intros l Hl. rewrite F2 by lia. now apply F1.
Qed.

Lemma grows_alloc h v : grows h (h ++ [v]).
Proof. split; [rewrite app_length; lia|]. intros l Hl. now rewrite nth_error_app1. Qed.

Lemma grows_read h h' a v : grows h h' -> hread h a = Some v -> hread h' a = Some v.
Proof.
  intros (_ & F) H. rewrite <- H. apply hread_same. apply F. eapply hread_loc; eauto.
Qed.

Lemma grows_upd h h1 (b : addr) w h2 :
  grows h h1 -> fst b < List.length h -> upd_to h1 b w h2 -> upd_to h b w h2.
Proof.
  intros (L1 & F1) Hb (L2 & F2 & c & c' & Hc & Hc' & P).
  split; [lia|]. split.
  - intros l Hl Hn. rewrite F2 by (lia || easy). now apply F1.
  - exists c, c'. rewrite <- F1 by easy. easy.
Qed.

Lemma upd_grows h b w h1 h2 : upd_to h b w h1 -> grows h1 h2 -> upd_to h b w h2.
Proof.
  intros U (L2 & F2). assert (Hb := upd_loc _ _ _ _ U).
  destruct U as (L1 & F1 & c & c' & Hc & Hc' & P).
  split; [lia|]. split.
  - intros l Hl Hn. rewrite F2 by lia. now apply F1.
  - exists c, c'. split; [easy|]. split; [|easy]. rewrite F2 by lia. easy.
Qed.

Lemma grows_upd_new h h1 (b : addr) w h2 :
  grows h h1 -> List.length h <= fst b -> upd_to h1 b w h2 -> grows h h2.
Proof.
  intros (L1 & F1) Hb (L2 & F2 & _). split; [lia|].
  intros l Hl. rewrite F2 by lia. now apply F1.
Qed.

Lemma upd_upd_new h (b : addr) w h1 (m : addr) w1 h2 :
  upd_to h b w h1 -> List.length h <= fst m -> upd_to h1 m w1 h2 -> upd_to h b w h2.
Proof.
  intros U Hm (L2 & F2 & _). assert (Hb := upd_loc _ _ _ _ U).
  destruct U as (L1 & F1 & c & c' & Hc & Hc' & P).
  split; [lia|]. split.
  - intros l Hl Hn. rewrite F2 by lia. now apply F1.
  - exists c, c'. split; [easy|]. split; [|easy]. rewrite F2 by lia. easy.
Qed.

Lemma alloc_read h v : hread (h ++ [v]) (List.length h, []) = Some v.
Proof.
  unfold hread. cbn [fst snd]. rewrite nth_error_app2 by lia. now rewrite Nat.sub_diag.
Qed.

Lemma alloc_nth h (v : val) : nth_error (h ++ [v]) (List.length h) = Some v.
Proof. rewrite nth_error_app2 by lia. now rewrite Nat.sub_diag. Qed.

(** ** Representation *)

Scheme den_mut := Induction for den Sort Prop
  with dens_mut := Induction for dens Sort Prop.
Combined Scheme den_dens_ind from den_mut, dens_mut.

Section Den.
Variable decls : string -> decl.

Lemma den_frame h h' :
  (forall T v t fp, den decls h T v t fp ->
     (forall l, In l fp -> nth_error h' l = nth_error h l) -> den decls h' T v t fp) /\
  (forall Ts vs ts fps, dens decls h Ts vs ts fps ->
     (forall l, In l fps -> nth_error h' l = nth_error h l) -> dens decls h' Ts vs ts fps).
Proof.
  apply den_dens_ind; intros.
  - now constructor.
  - now constructor.
  - econstructor; eauto.
    + rewrite <- e1. apply hread_same. apply H0. now left.
    + apply H. intros l Hl. apply H0. now right.
  - econstructor; eauto.
    + rewrite <- e1. apply hread_same. apply H0. now left.
    + apply H. intros l0 Hl. apply H0. now right.
  - econstructor; eauto.
    + rewrite H1; [easy|]. now left.
    + apply H. easy.
    + apply H0. intros l Hl. apply H1. now right.
  - econstructor; eauto.
  - constructor.
  - constructor.
    + apply H. intros l Hl. apply H1. apply in_or_app. now left.
    + apply H0. intros l Hl. apply H1. apply in_or_app. now right.
Qed.

Definition den_same h h' T v t fp (H : den decls h T v t fp)
  (F : forall l, In l fp -> nth_error h' l = nth_error h l) : den decls h' T v t fp :=
  proj1 (den_frame h h') T v t fp H F.
Definition dens_same h h' T v t fp (H : dens decls h T v t fp)
  (F : forall l, In l fp -> nth_error h' l = nth_error h l) : dens decls h' T v t fp :=
  proj2 (den_frame h h') T v t fp H F.

Lemma den_bound_both h :
  (forall T v t fp, den decls h T v t fp -> forall l, In l fp -> l < List.length h) /\
  (forall Ts vs ts fps, dens decls h Ts vs ts fps -> forall l, In l fps -> l < List.length h).
Proof.
  apply den_dens_ind; intros; try easy.
  - destruct H0 as [<-|Hl]; [eapply hread_loc; eauto|now apply H].
  - destruct H0 as [<-|Hl]; [eapply hread_loc; eauto|now apply H].
  - destruct H1 as [<-|Hl]; [apply nth_error_Some; congruence|now apply H0].
  - now apply H.
  - apply in_app_or in H1. destruct H1; [now apply H|now apply H0].
Qed.

Definition den_bound h T v t fp (H : den decls h T v t fp) := proj1 (den_bound_both h) T v t fp H.
Definition dens_bound h T v t fp (H : dens decls h T v t fp) := proj2 (den_bound_both h) T v t fp H.

Lemma den_grows h h' T v t fp : grows h h' -> den decls h T v t fp -> den decls h' T v t fp.
Proof.
  intros (_ & F) H. eapply den_same; eauto. intros l Hl. apply F. eapply den_bound; eauto.
Qed.

Lemma den_upd h (b : addr) w h' T v t fp :
  upd_to h b w h' -> ~ In (fst b) fp -> den decls h T v t fp -> den decls h' T v t fp.
Proof.
  intros (_ & F & _) Hn H. eapply den_same; eauto. intros l Hl. apply F.
  - eapply den_bound; eauto.
  - congruence.
Qed.

Lemma dens_upd h (b : addr) w h' T v t fp :
  upd_to h b w h' -> ~ In (fst b) fp -> dens decls h T v t fp -> dens decls h' T v t fp.
Proof.
  intros (_ & F & _) Hn H. eapply dens_same; eauto. intros l Hl. apply F.
  - eapply dens_bound; eauto.
  - congruence.
Qed.

(** Representation of the elements of a list one by one. *)
Lemma dens_each h e n vs ts fps :
  dens decls h (repeat e n) vs ts fps ->
  List.length vs = n /\
  exists L, map fst L = vs /\ map snd L = ts /\
    Forall (fun vt => exists fp, den decls h e (fst vt) (snd vt) fp /\ incl fp fps) L.
Proof.
  revert vs ts fps. induction n as [|n IH]; intros vs ts fps H; inversion H; subst.
  - split; [easy|]. now exists [].
  - match goal with X : dens _ _ (repeat _ _) _ _ _ |- _ =>
      destruct (IH _ _ _ X) as (Hl & L & <- & <- & HF) end. split; [cbn; lia|].
    exists ((v, t) :: L). split; [easy|]. split; [easy|]. constructor.
    + exists fp. split; [easy|]. apply incl_appl, incl_refl.
    + eapply Forall_impl; [|exact HF]. intros vt (fp' & Hd & Hi). exists fp'.
      split; [easy|]. now apply incl_appr.
Qed.

Lemma each_dens h e (P : loc -> Prop) (L : list (val * tree)) :
  Forall (fun vt => exists fp, den decls h e (fst vt) (snd vt) fp /\ Forall P fp) L ->
  exists fps, dens decls h (repeat e (List.length L)) (map fst L) (map snd L) fps /\ Forall P fps.
Proof.
  induction 1 as [|[v t] L (fp & Hd & Hp) _ (fps & Hs & HP)]; cbn.
  - exists []. split; constructor.
  - exists (fp ++ fps). split; [now constructor|]. apply Forall_app. now split.
Qed.

Lemma den_under h T T' v t fp :
  under decls T = under decls T' -> den decls h T v t fp -> den decls h T' v t fp.
Proof.
  intros E H. inversion H; subst.
  - apply den_bas. now rewrite <- E.
  - apply den_nil. now rewrite <- E.
  - eapply den_ptr; eauto. now rewrite <- E.
  - eapply den_slice; eauto. now rewrite <- E.
  - eapply den_map; eauto. now rewrite <- E.
  - eapply den_struct; eauto. now rewrite <- E.
Qed.

End Den.
