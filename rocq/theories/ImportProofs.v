(** * Imports of the generated DeepCopy code: proofs *)

From Coq Require Import String List Bool Arith Permutation Lia.
Import ListNotations.
From Verif Require Import GoLib MapFacts ImportModel ImportSpec.
Open Scope nat_scope.
Open Scope list_scope.

Lemma word_eqb_eq a : forall b, word_eqb a b = true <-> a = b.
Proof.
  induction a as [|x a IH]; intros [|y b]; cbn; try easy.
  rewrite andb_true_iff, Nat.eqb_eq, IH. split; [now intros (-> & ->)|]. intros H. now injection H.
Qed.

(** ** The path meant *)

Lemma prefix_app a b : prefix a b = true <-> exists c, b = a ++ c.
Proof.
  revert b. induction a as [|x a IH]; intros b; cbn.
  - split; [now exists b|easy].
  - destruct b as [|y b]; [split; [easy|now intros (c & H)]|].
    rewrite andb_true_iff, Nat.eqb_eq, IH. split.
    + intros (-> & c & ->). now exists c.
    + intros (c & H). injection H as -> ->. split; [easy|now exists c].
Qed.

Definition vend : word := w "/vendor/".

Lemma after_vendor_spec p :
  match after_vendor p with
  | Some q => (exists a, p = a ++ vend ++ q) /\
              (forall a q', p = a ++ vend ++ q' -> List.length q <= List.length q')
  | None => forall a q', p <> a ++ vend ++ q'
  end.
Proof.
  induction p as [|c r IH]; cbn [after_vendor]; [now intros [|] q' H|].
  destruct (after_vendor r) as [x|].
  - destruct IH as ((a & ->) & IH). split; [now exists (c :: a)|].
    intros [|d a'] q' H.
    + apply (f_equal (@List.length nat)) in H. rewrite !app_length in H. cbn [List.length] in H.
      rewrite !app_length in H. cbn in H. cbn. lia.
    + injection H as _ H. now apply IH in H.
  - change (w "/vendor/") with vend. destruct (prefix vend (c :: r)) eqn:E.
    + apply prefix_app in E. destruct E as (q & Hq). rewrite Hq. rewrite skipn_app.
      change (skipn 8 vend) with (@nil nat). change (8 - List.length vend) with 0. cbn [app skipn].
      split; [now exists []|]. intros [|d a] q' H.
      * cbn [app] in H. apply app_inv_head in H. now subst q'.
      * exfalso. rewrite <- Hq in H. injection H as _ H. now apply (IH a q').
    + intros [|d a] q' H.
      * assert (X : prefix vend (c :: r) = true); [|congruence]. apply prefix_app. now exists q'.
      * injection H as _ H. now apply (IH a q').
Qed.

Lemma same_tail (a b x q : list nat) : a ++ x = b ++ q -> List.length q = List.length x -> x = q.
Proof.
  revert b. induction a as [|y a IH]; intros [|z b] H L; try easy.
  - cbn [app] in H. subst x. cbn in L. rewrite app_length in L. lia.
  - cbn [app] in H. subst q. cbn in L. rewrite app_length in L. lia.
  - injection H as _ H. now apply (IH b).
Qed.

Lemma means_fun p q : means p q <-> q = no_vendor p.
Proof.
  unfold means, no_vendor. assert (H := after_vendor_spec p). fold vend. destruct (after_vendor p) as [x|].
  - destruct H as ((a & Ha) & Hmin). split.
    + intros [((b & Hb) & Hq)|(-> & Hno)]; [|now destruct (Hno a x)].
      assert (L1 := Hmin b q Hb). assert (L2 := Hq a x Ha).
      assert (List.length q = List.length x) by lia. rewrite Ha in Hb.
      symmetry. now apply (same_tail (a ++ vend) (b ++ vend)); rewrite <- ?app_assoc.
    + intros ->. left. split; [now exists a|easy].
  - split.
    + intros [((a & Ha) & _)|(-> & _)]; [now destruct (H a q)|easy].
    + intros ->. now right.
Qed.

(** ** The loop *)

Section Loop.
Variable letter digit : nat -> bool.
Notation pick := (pick letter digit).
Notation need_import := (need_import letter digit).
Notation need_imports := (need_imports letter digit).
Notation clean := (clean letter digit).
Notation skip_digits := (skip_digits digit).

Lemma path_split_length p : List.length (fst (path_split p)) + List.length (snd (path_split p)) = List.length p.
Proof.
  induction p as [|c r IH]; [easy|]. cbn [path_split]. destruct (path_split r) as (d, f). cbn in IH.
  destruct d as [|x d]; [destruct (Nat.eqb c slash)|]; cbn in *; lia.
Qed.

Lemma removelast_length (A : Type) (l : list A) : l <> [] -> S (List.length (removelast l)) = List.length l.
Proof.
  induction l as [|x l IH]; [easy|]. intros _. destruct l as [|y l]; [easy|].
  cbn [removelast List.length] in *. now rewrite IH.
Qed.

Definition longest (aliases : list (word * word)) : nat :=
  fold_right (fun xa m => Nat.max (List.length (fst xa)) m) 0 aliases.

Lemma longest_key aliases a p : mget word_eqb aliases a = Some p -> List.length a <= longest aliases.
Proof.
  induction aliases as [|(k, v) l IH]; [discriminate|]. cbn [mget longest fold_right fst].
  destruct (word_eqb a k) eqn:E.
  - apply word_eqb_eq in E. subst k. intros _. lia.
  - intros H. apply IH in H. unfold longest in H. lia.
Qed.

Lemma pick_ends n : forall aliases path rest next alias,
  List.length rest + (S (longest aliases) - List.length alias) < n ->
  pick n aliases path rest next alias <> None.
Proof.
  induction n as [|n IH]; intros aliases path rest next alias H; [lia|]. cbn [ImportModel.pick].
  destruct (mget word_eqb aliases _) as [other|] eqn:E; [|easy]. destruct (word_eqb other path); [easy|].
  apply longest_key in E. apply IH. rewrite app_length in E |- *. destruct rest as [|c r].
  - cbn [fst List.length Nat.add] in *. rewrite app_length in E |- *. cbn [List.length] in *. lia.
  - assert (X := path_split_length (removelast (c :: r))).
    assert (Y := removelast_length _ (c :: r) ltac:(discriminate)).
    cbn [List.length] in H, Y. lia.
Qed.

Lemma pick_mono n : forall aliases path rest next alias a,
  pick n aliases path rest next alias = Some a -> pick (S n) aliases path rest next alias = Some a.
Proof.
  induction n as [|n IH]; intros aliases path rest next alias a H; [discriminate H|].
  cbn [ImportModel.pick] in H. cbn [ImportModel.pick].
  destruct (mget word_eqb aliases (clean (skip_digits next) ++ _)) as [other|]; [|exact H].
  destruct (word_eqb other path); [exact H|]. apply IH in H. exact H.
Qed.

(** The alias chosen is free, or the path's own. *)
Lemma pick_free n : forall aliases path rest next alias a,
  pick n aliases path rest next alias = Some a ->
  mget word_eqb aliases a = None \/ mget word_eqb aliases a = Some path.
Proof.
  induction n as [|n IH]; intros aliases path rest next alias a H; [discriminate H|].
  cbn [ImportModel.pick] in H.
  match type of H with context [mget word_eqb aliases ?x] => destruct (mget word_eqb aliases x) as [other|] eqn:E end.
  - destruct (word_eqb other path) eqn:Eo.
    + apply word_eqb_eq in Eo. injection H as <-. right. congruence.
    + now apply IH in H.
  - injection H as <-. now left.
Qed.

Lemma need_mono n l p r : need_import n l p = Some r -> need_import (S n) l p = Some r.
Proof.
  unfold ImportModel.need_import. destruct (mget word_eqb (by_path l) (no_vendor p)); [easy|].
  destruct (no_vendor p) as [|c q]; [easy|]. destruct (path_split (c :: q)) as (rest, next).
  destruct (pick n _ _ _ _ _) as [a|] eqn:E; [|discriminate]. now rewrite (pick_mono _ _ _ _ _ _ _ E).
Qed.

Lemma need_ends n l p : S (List.length (no_vendor p) + longest (by_alias l)) < n -> need_import n l p <> None.
Proof.
  intros H. unfold ImportModel.need_import. destruct (mget word_eqb (by_path l) (no_vendor p)); [easy|].
  destruct (no_vendor p) as [|c q]; [easy|].
  assert (X := path_split_length (c :: q)). destruct (path_split (c :: q)) as (rest, next). cbn [fst snd] in X.
  destruct (pick n _ _ _ _ _) as [a|] eqn:E; [easy|].
  exfalso. revert E. apply pick_ends. cbn [List.length] in *. lia.
Qed.

Lemma needs_mono n ps : forall l r, need_imports n l ps = Some r -> need_imports (S n) l ps = Some r.
Proof.
  induction ps as [|p ps IH]; intros l r; cbn [ImportModel.need_imports]; [easy|].
  destruct (need_import n l p) as [[l1 a]|] eqn:E; [|discriminate]. rewrite (need_mono _ _ _ _ E).
  destruct (need_imports n l1 ps) as [[l2 r2]|] eqn:E2; [|discriminate]. now rewrite (IH _ _ E2).
Qed.

Lemma needs_more n j ps l r : need_imports n l ps = Some r -> need_imports (j + n) l ps = Some r.
Proof. induction j as [|j IH]; [easy|]. intros H. cbn [Nat.add]. apply needs_mono. now apply IH. Qed.
Lemma need_more n j l p r : need_import n l p = Some r -> need_import (j + n) l p = Some r.
Proof. induction j as [|j IH]; [easy|]. intros H. cbn [Nat.add]. apply need_mono. now apply IH. Qed.

Lemma needs_end ps : forall l, exists n r, forall k, n <= k -> need_imports k l ps = Some r.
Proof.
  induction ps as [|p ps IH]; intros l; [now exists 0, (l, [])|].
  set (n1 := S (S (List.length (no_vendor p) + longest (by_alias l)))).
  destruct (need_import n1 l p) as [[l1 a]|] eqn:E1.
  - destruct (IH l1) as (n2 & [l2 r] & H2). exists (n1 + n2), (l2, a :: r). intros k Hk. cbn [ImportModel.need_imports].
    replace k with ((k - n1) + n1) at 1 by lia. rewrite (need_more _ _ _ _ _ E1), H2; [easy|lia].
  - exfalso. revert E1. apply need_ends. unfold n1. lia.
Qed.

(** ** What the tables say *)

Record inv (root : word) (l : imports) : Prop := {
  in_root : mget word_eqb (by_alias l) root = Some [];
  in_path : forall p a, mget word_eqb (by_path l) p = Some a -> p <> [] /\ mget word_eqb (by_alias l) a = Some p;
  in_keys : NoDup (map fst (by_path l)) }.

Lemma inv_start root : inv root (no_imports root).
Proof.
  constructor; cbn.
  - now rewrite (proj2 (word_eqb_eq root root) eq_refl).
  - easy.
  - constructor.
Qed.

Lemma need_inv root n l p l1 a :
  inv root l -> no_vendor p <> [] -> need_import n l p = Some (l1, a) ->
  inv root l1 /\ mget word_eqb (by_path l1) (no_vendor p) = Some a /\
  (forall q b, mget word_eqb (by_path l) q = Some b -> mget word_eqb (by_path l1) q = Some b).
Proof.
  intros I Hp H. unfold ImportModel.need_import in H.
  destruct (mget word_eqb (by_path l) (no_vendor p)) as [b|] eqn:Eb; [injection H as <- <-; easy|].
  destruct (no_vendor p) as [|c q]; [easy|]. destruct (path_split (c :: q)) as (rest, next).
  destruct (pick n _ _ _ _ _) as [b|] eqn:E; [|discriminate H]. injection H as <- <-. cbn [by_path by_alias].
  assert (Hfree : mget word_eqb (by_alias l) b = None \/ mget word_eqb (by_alias l) b = Some (c :: q)).
  { now apply pick_free in E. }
  assert (Hother : forall x y, mget word_eqb (by_path l) x = Some y -> x <> c :: q /\ y <> b).
  { intros x y Hx. assert (x <> c :: q) by congruence. split; [easy|]. intros ->.
    destruct (in_path _ _ I _ _ Hx) as (_ & Hy). destruct Hfree as [F|F]; congruence. }
  split; [|split].
  - constructor; cbn [by_path by_alias].
    + rewrite (mget_mset_ne _ _ _ word_eqb_eq); [apply (in_root _ _ I)|].
      intros ->. destruct Hfree as [F|F]; rewrite (in_root _ _ I) in F; discriminate F.
    + intros x y Hx. destruct (word_eqb x (c :: q)) eqn:Ex.
      * apply word_eqb_eq in Ex. subst x. rewrite (mget_mset_eq _ _ _ word_eqb_eq) in Hx. injection Hx as <-.
        split; [discriminate|]. apply (mget_mset_eq _ _ _ word_eqb_eq).
      * assert (Hne : x <> c :: q) by (intros Z; apply word_eqb_eq in Z; congruence).
        rewrite (mget_mset_ne _ _ _ word_eqb_eq _ _ _ _ Hne) in Hx. destruct (Hother x y Hx) as (_ & Hyb).
        destruct (in_path _ _ I x y Hx) as (Hx0 & Hy). split; [easy|].
        now rewrite (mget_mset_ne _ _ _ word_eqb_eq).
    + apply (mset_nodup _ _ _ word_eqb_eq). apply (in_keys _ _ I).
  - apply (mget_mset_eq _ _ _ word_eqb_eq).
  - intros x y Hx. destruct (Hother x y Hx) as (Hne & _). now rewrite (mget_mset_ne _ _ _ word_eqb_eq).
Qed.

Lemma needs_inv root n ps : forall l l2 r,
  inv root l -> (forall p, In p ps -> no_vendor p <> []) -> need_imports n l ps = Some (l2, r) ->
  inv root l2 /\
  (forall q b, mget word_eqb (by_path l) q = Some b -> mget word_eqb (by_path l2) q = Some b) /\
  (forall i p a, nth_error ps i = Some p -> nth_error r i = Some a -> mget word_eqb (by_path l2) (no_vendor p) = Some a) /\
  List.length r = List.length ps.
Proof.
  induction ps as [|p ps IH]; intros l l2 r I Hps H; cbn [ImportModel.need_imports] in H.
  - injection H as <- <-. split; [easy|]. split; [easy|]. split; [|easy]. now intros [|i].
  - destruct (need_import n l p) as [[l1 a]|] eqn:E1; [|discriminate H].
    destruct (need_imports n l1 ps) as [[l3 r3]|] eqn:E2; [|discriminate H]. injection H as <- <-.
    destruct (need_inv _ _ _ _ _ _ I (Hps p (or_introl eq_refl)) E1) as (I1 & Ha & Hk).
    destruct (IH l1 l3 r3 I1) as (I3 & Hk2 & Hn & Hl); [intros q Hq; apply Hps; now right|easy|].
    split; [easy|]. split; [intros q b Hq; apply Hk2; now apply Hk|]. split.
    + intros [|i] q b Hq Hb; cbn in Hq, Hb.
      * injection Hq as <-. injection Hb as <-. now apply Hk2.
      * now apply (Hn i).
    + cbn. now rewrite Hl.
Qed.

(** ** Identifiers *)

Hypothesis letter_x_ok : letter letter_x = true.
Hypothesis underscore_ok : digit underscore = false.

Definition id_char (c : nat) : Prop := letter c = true \/ digit c = true \/ c = underscore.
Definition id_or_empty (s : word) : Prop := s = [] \/ identifier letter digit s.

Lemma clean_chars s x : In x (clean s) -> id_char x.
Proof.
  unfold ImportModel.clean. rewrite in_map_iff. intros (c & <- & _). unfold id_char.
  destruct (letter c) eqn:E1; [cbn; now left|]. destruct (digit c) eqn:E2; [cbn; right; now left|].
  destruct (Nat.eqb c underscore) eqn:E3; cbn; [apply Nat.eqb_eq in E3|]; right; now right.
Qed.

Lemma skip_first s : match skip_digits s with [] => True | c :: _ => digit c = false end.
Proof. induction s as [|c r IH]; cbn; [easy|]. destruct (digit c) eqn:E; [exact IH|exact E]. Qed.

Lemma next_id s : id_or_empty (clean (skip_digits s)).
Proof.
  assert (H := skip_first s). destruct (skip_digits s) as [|c r]; [now left|]. right. cbn. split.
  - rewrite H. destruct (letter c) eqn:E; [now left|]. right.
    destruct (Nat.eqb c underscore) eqn:E2; [now apply Nat.eqb_eq in E2|easy].
  - intros x Hx. now apply (clean_chars r).
Qed.

Lemma id_all s x : id_or_empty s -> In x s -> id_char x.
Proof.
  intros [->|H] Hx; [easy|]. destruct s as [|c r]; [easy|]. destruct H as (Hc & Hr).
  destruct Hx as [<-|Hx]; [|now apply Hr]. unfold id_char. tauto.
Qed.

Lemma id_app s t : id_or_empty s -> id_or_empty t -> id_or_empty (s ++ t).
Proof.
  intros Hs Ht. destruct s as [|c r]; [easy|]. right. destruct Hs as [Hs|Hs]; [discriminate Hs|].
  destruct Hs as (Hc & Hr). split; [easy|]. intros x Hx. apply in_app_or in Hx.
  destruct Hx as [Hx|Hx]; [now apply Hr|]. now apply (id_all t).
Qed.

Lemma pick_id n : forall aliases path rest next alias a,
  id_or_empty alias -> pick n aliases path rest next alias = Some a -> id_or_empty a /\
  (rest = [] \/ alias <> [] \/ (exists c, In c next /\ digit c = false) -> a <> []).
Proof.
  induction n as [|n IH]; intros aliases path rest next alias a Ha H; [discriminate H|].
  cbn [ImportModel.pick] in H.
  set (alias1 := match rest with [] => alias ++ [letter_x] | _ :: _ => alias end) in *.
  assert (H1 : id_or_empty alias1).
  { unfold alias1. destruct rest; [|easy]. apply id_app; [easy|]. right. split; [now left|easy]. }
  assert (H2 : id_or_empty (clean (skip_digits next) ++ alias1)) by (apply id_app; [apply next_id|easy]).
  assert (H3 : rest = [] \/ alias <> [] \/ (exists c, In c next /\ digit c = false) ->
               clean (skip_digits next) ++ alias1 <> []).
  { intros Hor X. apply app_eq_nil in X. destruct X as (X1 & X2). destruct Hor as [-> |[Hor|(c & Hc & Hd)]].
    - unfold alias1 in X2. now destruct alias.
    - unfold alias1 in X2. now destruct rest, alias.
    - unfold ImportModel.clean in X1. apply map_eq_nil in X1.
      clear - X1 Hc Hd. induction next as [|x next IHn]; [easy|]. cbn in X1. destruct (digit x) eqn:E; [|easy].
      destruct Hc as [<-|Hc]; [congruence|]. now apply IHn. }
  destruct (mget word_eqb aliases _) as [other|].
  - destruct (word_eqb other path).
    + injection H as <-. now split.
    + apply IH in H; [|easy]. destruct H as (Ha2 & Hne). split; [easy|]. intros Hor. apply Hne. right. left. now apply H3.
  - injection H as <-. now split.
Qed.

Lemma split_last p d f : path_split p = (d, f) -> p = d ++ f /\ ~ In slash f /\ (d = [] \/ exists d', d = d' ++ [slash]).
Proof.
  revert d f. induction p as [|c r IH]; intros d f H; cbn [path_split] in H.
  - injection H as <- <-. split; [easy|]. split; [easy|now left].
  - destruct (path_split r) as (d1, f1). destruct (IH d1 f1 eq_refl) as (-> & Hf & Hd).
    destruct d1 as [|x d1].
    + destruct (Nat.eqb c slash) eqn:E.
      * apply Nat.eqb_eq in E. subst c. injection H as <- <-. split; [easy|]. split; [easy|]. right. now exists [].
      * injection H as <- <-. split; [easy|]. split; [|now left]. intros [X|X]; [|easy].
        apply Nat.eqb_neq in E. now apply E.
    + injection H as <- <-. split; [easy|]. split; [easy|]. right. destruct Hd as [Hd|(d' & Hd)]; [easy|].
      exists (c :: d'). now rewrite Hd.
Qed.

End Loop.
