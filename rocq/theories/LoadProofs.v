(** * Sharing the root packages: proofs *)

From Coq Require Import String List Bool Arith Permutation Lia.
Import ListNotations.
From Verif Require Import GoLib MapFacts LoadModel LoadSpec.
Open Scope nat_scope.
Open Scope list_scope.

Lemma smem_in k l : smem k l = true <-> In k l.
Proof.
  unfold smem. rewrite existsb_exists. split.
  - intros (x & Hx & E). apply String.eqb_eq in E. now subst.
  - intros H. exists k. split; [easy|apply String.eqb_refl].
Qed.

Lemma key_in (m : list (string * obj)) k x : mget String.eqb m k = Some x -> In k (map fst m).
Proof. intros H. apply (mget_in _ _ _ String.eqb_eq) in H. now apply (in_map fst) in H. Qed.
Lemma in_key (m : list (string * obj)) k : In k (map fst m) -> exists x, mget String.eqb m k = Some x.
Proof.
  intros H. destruct (mget String.eqb m k) as [x|] eqn:E; [now exists x|].
  apply (mget_none _ _ _ String.eqb_eq) in E. contradiction.
Qed.

Section Proofs.
Variable id : obj -> string.
Variable choose : nat -> list string -> list string.
Hypothesis Hchoose : some_order choose.
Variable roots : list obj.
Hypothesis Hids : NoDup (map id roots).

Notation visit := (visit id choose roots).
Notation relink := (relink id).

Definition key_ok (h : heap) (x : obj) (k : string) : Prop :=
  forall r, In r roots -> id r = k -> mget String.eqb (h x) k = Some r.

Lemma set_edge_get h o k r x k' : mget String.eqb (set_edge h o k r x) k' =
  if Nat.eqb x o && String.eqb k' k then Some r else mget String.eqb (h x) k'.
Proof.
  unfold set_edge. destruct (Nat.eqb_spec x o) as [->|Hx]; [|easy]. cbn [andb].
  destruct (String.eqb_spec k' k) as [->|Hk].
  - apply (mget_mset_eq _ _ _ String.eqb_eq).
  - now apply (mget_mset_ne _ _ _ String.eqb_eq).
Qed.

Lemma set_edge_keys h o k r x : In k (map fst (h o)) -> map fst (set_edge h o k r x) = map fst (h x).
Proof.
  intros H. unfold set_edge. destruct (Nat.eqb_spec x o) as [->|Hx]; [|easy].
  now apply (mset_keys_present _ _ _ String.eqb_eq).
Qed.

Lemma relink_keys rs o k : forall h x, In k (map fst (h o)) -> map fst (relink rs o k h x) = map fst (h x).
Proof.
  induction rs as [|r rs IH]; intros h x H; cbn; [easy|]. rewrite IH; destruct (String.eqb k (id r)); try easy.
  - now apply set_edge_keys.
  - now rewrite set_edge_keys.
Qed.

Lemma relink_other rs o k : forall h x k', x <> o \/ k' <> k ->
  mget String.eqb (relink rs o k h x) k' = mget String.eqb (h x) k'.
Proof.
  induction rs as [|r rs IH]; intros h x k' H; cbn; [easy|]. rewrite IH by easy.
  destruct (String.eqb k (id r)); [|easy]. rewrite set_edge_get.
  destruct (Nat.eqb_spec x o) as [->|Hx]; [|easy]. destruct (String.eqb_spec k' k) as [->|Hk]; [|easy]. now destruct H.
Qed.

Lemma relink_heap rs o k : forall h x, x <> o -> relink rs o k h x = h x.
Proof.
  induction rs as [|r rs IH]; intros h x H; cbn; [easy|]. rewrite IH by easy.
  destruct (String.eqb k (id r)); [|easy]. unfold set_edge. apply Nat.eqb_neq in H. now rewrite H.
Qed.

Lemma relink_none rs o k : forall h, (forall r, In r rs -> id r <> k) -> relink rs o k h = h.
Proof.
  induction rs as [|r rs IH]; intros h H; cbn; [easy|].
  assert (E : String.eqb k (id r) = false).
  { apply String.eqb_neq. intros E. apply (H r); [now left|easy]. }
  rewrite E. apply IH. intros r' Hr. apply H. now right.
Qed.

Lemma relink_root rs o k : forall h r, NoDup (map id rs) -> In r rs -> id r = k ->
  mget String.eqb (relink rs o k h o) k = Some r.
Proof.
  induction rs as [|r' rs IH]; intros h r N Hr E; [easy|]. cbn in N. inversion N as [|? ? Hn N']; subst. cbn.
  destruct Hr as [->|Hr].
  - rewrite String.eqb_refl. rewrite relink_none.
    + now rewrite set_edge_get, Nat.eqb_refl, String.eqb_refl.
    + intros r' Hr' E. apply Hn. rewrite <- E. now apply in_map.
  - now apply IH.
Qed.

Lemma relink_ok o k h x k' : In k (map fst (h o)) -> key_ok h x k' \/ (x = o /\ k' = k) -> key_ok (relink roots o k h) x k'.
Proof.
  intros Hk H r Hr E. destruct (Nat.eq_dec x o) as [->|Hx].
  - destruct (String.eqb_spec k' k) as [->|Hkk].
    + now apply relink_root.
    + rewrite relink_other by now right. destruct H as [H|(_ & H)]; [now apply H|easy].
  - rewrite relink_other by now left. destruct H as [H|(H & _)]; [now apply H|easy].
Qed.

(** An import is the original one or the root it names. *)
Lemma relink_sound rs o k : forall h x k' y, incl rs roots ->
  mget String.eqb (relink rs o k h x) k' = Some y ->
  mget String.eqb (h x) k' = Some y \/ (In y roots /\ id y = k').
Proof.
  induction rs as [|r rs IH]; intros h x k' y Hin H; cbn in H; [now left|].
  apply IH in H; [|intros z Hz; apply Hin; now right]. destruct H as [H|H]; [|now right].
  destruct (String.eqb_spec k (id r)) as [->|]; [|now left]. rewrite set_edge_get in H.
  destruct (Nat.eqb x o && String.eqb k' (id r)) eqn:E; [|now left].
  apply andb_true_iff in E. destruct E as (_ & E). apply String.eqb_eq in E. injection H as <-. right.
  split; [apply Hin; now left|easy].
Qed.

(** ** The loop of visit, given a name *)

Fixpoint steps (n' : nat) (o : obj) (ks : list string) (st : vstate) : option vstate :=
  match ks with
  | [] => Some st
  | k :: ks' =>
      match mget String.eqb (vheap st o) k with
      | None => steps n' o ks' st
      | Some imported =>
          let h1 := relink roots o k (vheap st) in
          if smem k (vseen st) then steps n' o ks' (mkv h1 (vseen st) (vcount st))
          else match visit n' imported (mkv h1 (k :: vseen st) (vcount st)) with
               | Some st' => steps n' o ks' st'
               | None => None
               end
      end
  end.

Lemma visit_steps n o st : visit (S n) o st =
  steps n o (choose (vcount st) (map fst (vheap st o))) (mkv (vheap st) (vseen st) (S (vcount st))).
Proof.
  cbn [LoadModel.visit]. generalize (mkv (vheap st) (vseen st) (S (vcount st))).
  generalize (choose (vcount st) (map fst (vheap st o))) as ks. clear st.
  induction ks as [|k ks IH]; intros st; cbn [steps]; [reflexivity|].
  destruct (mget String.eqb (vheap st o) k) as [y|]; [|apply IH].
  destruct (smem k (vseen st)); [apply IH|]. destruct (visit n y _) as [st'|]; [apply IH|reflexivity].
Qed.

(** ** It ends *)

Definition left_over (K : list string) (seen : list string) : nat :=
  List.length (filter (fun k => negb (smem k seen)) K).

Lemma filter_le {A} (f g : A -> bool) l : (forall x, In x l -> g x = true -> f x = true) ->
  List.length (filter g l) <= List.length (filter f l).
Proof.
  induction l as [|x l IH]; intros H; cbn; [lia|]. assert (X := H x (or_introl eq_refl)).
  assert (Y : List.length (filter g l) <= List.length (filter f l)) by (apply IH; intros y Hy; apply H; now right).
  destruct (g x) eqn:E; [rewrite (X eq_refl)|destruct (f x)]; cbn; lia.
Qed.

Lemma filter_lt {A} (f g : A -> bool) l a : (forall x, In x l -> g x = true -> f x = true) ->
  In a l -> f a = true -> g a = false -> List.length (filter g l) < List.length (filter f l).
Proof.
  induction l as [|x l IH]; intros H Ha Hf Hg; [easy|]. cbn.
  assert (Y : List.length (filter g l) <= List.length (filter f l)) by (apply filter_le; intros y Hy; apply H; now right).
  destruct Ha as [->|Ha].
  - rewrite Hf, Hg. cbn. lia.
  - assert (Z : List.length (filter g l) < List.length (filter f l)) by (apply IH; try easy; intros y Hy; apply H; now right).
    assert (X := H x (or_introl eq_refl)). destruct (g x) eqn:E; [rewrite (X eq_refl)|destruct (f x)]; cbn; lia.
Qed.

Lemma left_incl K s s' : incl s s' -> left_over K s' <= left_over K s.
Proof.
  intros H. apply filter_le. intros x _ Hx. apply negb_true_iff in Hx. apply negb_true_iff.
  destruct (smem x s) eqn:E; [|easy]. apply smem_in, H, smem_in in E. congruence.
Qed.
Lemma left_lt K s k : In k K -> smem k s = false -> left_over K (k :: s) < left_over K s.
Proof.
  intros Hk Hs. apply (filter_lt _ _ _ k); [|easy|now rewrite Hs|].
  - intros x _ Hx. apply negb_true_iff in Hx. apply negb_true_iff. destruct (smem x s) eqn:E; [|easy].
    apply smem_in in E. assert (X : smem x (k :: s) = true) by (apply smem_in; now right). congruence.
  - apply negb_false_iff. apply smem_in. now left.
Qed.

Section Ends.
Variable K : list string.

Lemma visit_ends n : forall o st, (forall x, incl (map fst (vheap st x)) K) -> left_over K (vseen st) < n ->
  exists st', (forall m, n <= m -> visit m o st = Some st') /\ incl (vseen st) (vseen st') /\
    forall x, map fst (vheap st' x) = map fst (vheap st x).
Proof.
  induction n as [|n IH]; intros o st HK Hn; [lia|].
  assert (Hs : forall ks st, (forall x, incl (map fst (vheap st x)) K) -> left_over K (vseen st) < S n ->
    exists st', (forall m, n <= m -> steps m o ks st = Some st') /\ incl (vseen st) (vseen st') /\
      forall x, map fst (vheap st' x) = map fst (vheap st x)).
  { clear st HK Hn. induction ks as [|k ks IHk]; intros st HK Hn.
    - now exists st.
    - cbn [steps]. destruct (mget String.eqb (vheap st o) k) as [y|] eqn:E.
      + assert (Hkey := key_in _ _ _ E).
        assert (HK1 : forall x, map fst (relink roots o k (vheap st) x) = map fst (vheap st x)) by (intros x; now apply relink_keys).
        destruct (smem k (vseen st)) eqn:Es.
        * destruct (IHk (mkv (relink roots o k (vheap st)) (vseen st) (vcount st))) as (st' & H & Hi & Hk').
          { intros x. cbn. rewrite HK1. apply HK. } { easy. }
          exists st'. split; [easy|]. split; [easy|]. intros x. rewrite Hk'. apply HK1.
        * assert (Hlt := left_lt K (vseen st) k (HK o k Hkey) Es).
          destruct (IH y (mkv (relink roots o k (vheap st)) (k :: vseen st) (vcount st))) as (st1 & H1 & Hi1 & Hk1).
          { intros x. cbn. rewrite HK1. apply HK. } { cbn. lia. }
          cbn in Hi1, Hk1.
          destruct (IHk st1) as (st' & H & Hi & Hk').
          { intros x. rewrite Hk1, HK1. apply HK. }
          { assert (X := left_incl K _ _ Hi1). lia. }
          exists st'. split; [|split].
          -- intros m Hm. rewrite H1 by easy. now apply H.
          -- intros z Hz. apply Hi, Hi1. now right.
          -- intros x. now rewrite Hk', Hk1, HK1.
      + apply IHk; easy. }
  destruct (Hs (choose (vcount st) (map fst (vheap st o))) (mkv (vheap st) (vseen st) (S (vcount st))) HK Hn) as (st' & H & Hi & Hk).
  exists st'. split; [|easy]. intros [|m] Hm; [lia|]. rewrite visit_steps. apply H. lia.
Qed.

Lemma visit_all_ends rs : forall h c, (forall x, incl (map fst (h x)) K) ->
  exists n h' c', forall m, n <= m -> visit_all id choose roots m rs h c = Some (h', c').
Proof.
  induction rs as [|r rs IH]; intros h c HK.
  - now exists 0, h, c.
  - destruct (visit_ends (S (left_over K [])) r (mkv h [] c) HK) as (st & H & _ & Hk); [cbn; lia|].
    destruct (IH (vheap st) (vcount st)) as (n & h' & c' & H').
    { intros x. rewrite Hk. apply HK. }
    exists (Nat.max n (S (left_over K []))), h', c'. intros m Hm. cbn [visit_all]. rewrite H by lia. apply H'. lia.
Qed.
End Ends.

(** ** What it does to the imports *)

Definition sound (h0 h : heap) : Prop :=
  (forall x, map fst (h x) = map fst (h0 x)) /\
  forall o k x, mget String.eqb (h o) k = Some x -> mget String.eqb (h0 o) k = Some x \/ (In x roots /\ id x = k).

Lemma sound_relink h0 h o k : In k (map fst (h o)) -> sound h0 h -> sound h0 (relink roots o k h).
Proof.
  intros Hk (S1 & S2). split.
  - intros x. rewrite relink_keys by easy. apply S1.
  - intros o' k' x H. apply relink_sound in H; [|apply incl_refl]. destruct H as [H|H]; [now apply S2|now right].
Qed.

Lemma visit_sound n h0 : forall o st st', sound h0 (vheap st) -> visit n o st = Some st' -> sound h0 (vheap st').
Proof.
  induction n as [|n IH]; intros o st st' S H; [discriminate H|]. rewrite visit_steps in H. revert H.
  assert (X : sound h0 (vheap (mkv (vheap st) (vseen st) (Datatypes.S (vcount st))))) by exact S. revert X.
  generalize (mkv (vheap st) (vseen st) (Datatypes.S (vcount st))) as st0.
  generalize (choose (vcount st) (map fst (vheap st o))) as ks. clear st S.
  induction ks as [|k ks IHk]; intros st S H; cbn [steps] in H; [now injection H as <-|].
  destruct (mget String.eqb (vheap st o) k) as [y|] eqn:E; [|now apply (IHk st)].
  assert (S1 := sound_relink h0 (vheap st) o k (key_in _ _ _ E) S).
  destruct (smem k (vseen st)); [now apply (IHk (mkv (relink roots o k (vheap st)) (vseen st) (vcount st)) S1)|].
  destruct (visit n y _) as [st1|] eqn:Ev; [|discriminate H].
  apply (IHk st1); [|easy]. exact (IH y (mkv (relink roots o k (vheap st)) (k :: vseen st) (vcount st)) _ S1 Ev).
Qed.

Section Load.
Variable h0 : heap.
Variable load : obj -> nat.
Variable tgt : nat -> string -> obj.
Hypothesis Hload : loaded h0 load tgt.
Variable L : nat.

Record pre (st : vstate) : Prop := {
  p_keys : forall x, map fst (vheap st x) = map fst (h0 x);
  p_edges : forall o k, load o = L -> mget String.eqb (vheap st o) k = mget String.eqb (h0 o) k \/ In k (vseen st) }.

Definition finished (st : vstate) (x : obj) : Prop :=
  forall k, In k (map fst (h0 x)) -> key_ok (vheap st) x k /\ In k (vseen st).

Record post (st st' : vstate) : Prop := {
  q_pre : pre st';
  q_seen : incl (vseen st) (vseen st');
  q_other : forall x, load x <> L -> vheap st' x = vheap st x;
  q_keep : forall x k, key_ok (vheap st) x k -> key_ok (vheap st') x k;
  q_new : forall k, In k (vseen st') -> ~ In k (vseen st) -> finished st' (tgt L k) }.

Lemma finished_post st st' x : post st st' -> finished st x -> finished st' x.
Proof. intros P F k Hk. destruct (F k Hk) as (F1 & F2). split; [now apply (q_keep _ _ P)|now apply (q_seen _ _ P)]. Qed.

Lemma post_trans a b c : post a b -> post b c -> post a c.
Proof.
  intros P Q. constructor.
  - apply (q_pre _ _ Q).
  - intros k Hk. now apply (q_seen _ _ Q), (q_seen _ _ P).
  - intros x Hx. rewrite (q_other _ _ Q x Hx). now apply (q_other _ _ P).
  - intros x k Hx. now apply (q_keep _ _ Q), (q_keep _ _ P).
  - intros k Hk Hn. destruct (in_dec string_dec k (vseen b)) as [Hb|Hb].
    + apply (finished_post b c _ Q). now apply (q_new _ _ P).
    + now apply (q_new _ _ Q).
Qed.

Lemma visit_post n : forall o st st', load o = L -> pre st -> visit n o st = Some st' -> post st st' /\ finished st' o.
Proof.
  induction n as [|n IH]; intros o st st' Ho Hp H; [discriminate H|]. rewrite visit_steps in H.
  assert (Hs : forall ks st, pre st -> steps n o ks st = Some st' ->
    post st st' /\ forall k, In k ks -> In k (map fst (h0 o)) -> key_ok (vheap st') o k /\ In k (vseen st')).
  { clear st Hp H. induction ks as [|k ks IHk]; intros st Hp H; cbn [steps] in H.
    - injection H as <-. split; [|easy]. constructor; try easy.
    - destruct (mget String.eqb (vheap st o) k) as [y|] eqn:E.
      + assert (Hkey := key_in _ _ _ E).
        destruct (smem k (vseen st)) eqn:Es.
        * assert (Hin : In k (vseen st)) by now apply smem_in.
          set (st1 := mkv (relink roots o k (vheap st)) (vseen st) (vcount st)) in *.
          assert (P1 : post st st1).
          { constructor.
            - constructor; cbn.
              + intros x. rewrite relink_keys by easy. apply (p_keys _ Hp).
              + intros x k' Hx. destruct (string_dec k' k) as [->|Hk']; [now right|].
                rewrite relink_other by now right. now apply (p_edges _ Hp).
            - apply incl_refl.
            - intros x Hx. cbn. apply relink_heap. intros ->. congruence.
            - intros x k' Hk'. apply relink_ok; [easy|now left].
            - easy. }
          destruct (IHk st1 (q_pre _ _ P1) H) as (Q & F). split; [now apply (post_trans _ st1)|].
          intros k' [<-|Hk'] Hk0; [|now apply F]. split.
          -- apply (q_keep _ _ Q). apply relink_ok; [easy|now right].
          -- now apply (q_seen _ _ Q).
        * assert (Hnot : ~ In k (vseen st)) by (rewrite <- smem_in; congruence).
          destruct (visit n y _) as [st2|] eqn:Ev; [|discriminate H].
          set (st1 := mkv (relink roots o k (vheap st)) (k :: vseen st) (vcount st)) in *.
          assert (Hy : mget String.eqb (h0 o) k = Some y).
          { destruct (p_edges _ Hp o k Ho) as [X|X]; [now rewrite <- X|contradiction]. }
          destruct (Hload o k y Hy) as (Ey & Ly). rewrite Ho in Ey, Ly.
          assert (Hp1 : pre st1).
          { constructor; cbn.
            - intros x. rewrite relink_keys by easy. apply (p_keys _ Hp).
            - intros x k' Hx. destruct (string_dec k' k) as [->|Hk']; [right; now left|].
              rewrite relink_other by now right. destruct (p_edges _ Hp x k' Hx) as [X|X]; [now left|right; now right]. }
          destruct (IH y st1 st2 Ly Hp1 Ev) as (P2 & F2).
          assert (P12 : post st st2).
          { constructor.
            - apply (q_pre _ _ P2).
            - intros x Hx. apply (q_seen _ _ P2). now right.
            - intros x Hx. rewrite (q_other _ _ P2 x Hx). cbn. apply relink_heap. intros ->. congruence.
            - intros x k' Hk'. apply (q_keep _ _ P2). apply relink_ok; [easy|now left].
            - intros k' Hk' Hn. destruct (string_dec k' k) as [->|Hne]; [now rewrite <- Ey|].
              apply (q_new _ _ P2); [easy|]. intros [X|X]; congruence. }
          destruct (IHk st2 (q_pre _ _ P2) H) as (Q & F). split; [now apply (post_trans _ st2)|].
          intros k' [<-|Hk'] Hk0; [|now apply F]. split.
          -- apply (q_keep _ _ Q), (q_keep _ _ P2). apply relink_ok; [easy|now right].
          -- apply (q_seen _ _ Q), (q_seen _ _ P2). now left.
      + destruct (IHk st Hp H) as (Q & F). split; [easy|]. intros k' [<-|Hk'] Hk0; [|now apply F].
        exfalso. rewrite <- (p_keys _ Hp) in Hk0. apply in_key in Hk0. destruct Hk0 as (x & Hx). congruence. }
  destruct (Hs _ _ (Build_pre (mkv (vheap st) (vseen st) (S (vcount st))) (p_keys _ Hp) (p_edges _ Hp)) H) as (P & F).
  split.
  - destruct P as [P1 P2 P3 P4 P5]. now constructor.
  - intros k Hk. apply F; [|easy]. rewrite (p_keys _ Hp). apply (Permutation_in _ (Hchoose _ _) Hk).
Qed.
End Load.

(** ** All roots, each of its own load *)

Section All.
Variable h0 : heap.
Variable load : obj -> nat.
Variable tgt : nat -> string -> obj.
Hypothesis Hload : loaded h0 load tgt.

(** What is known of a root once it was visited: a set of paths, closed under the
    imports, such that all packages in it have the right imports. *)
Definition visited (h : heap) (r : obj) : Prop :=
  exists seen, forall x, x = r \/ (exists k, In k seen /\ x = tgt (load r) k /\ load x = load r) ->
    forall k, In k (map fst (h0 x)) -> key_ok h x k /\ In k seen.

Lemma tgt_load o k y : mget String.eqb (h0 o) k = Some y -> load (tgt (load o) k) = load o.
Proof. intros H. destruct (Hload o k y H) as (E & El). now rewrite <- E. Qed.

Lemma visit_all_ok n rs : forall h c h' c',
  NoDup (map load rs) ->
  (forall x, map fst (h x) = map fst (h0 x)) ->
  (forall r x, In r rs -> load x = load r -> h x = h0 x) ->
  visit_all id choose roots n rs h c = Some (h', c') ->
  (forall r, In r rs -> visited h' r) /\ (forall x k, key_ok h x k -> key_ok h' x k).
Proof.
  induction rs as [|r rs IH]; intros h c h' c' N Hk Hun H; cbn [visit_all] in H.
  - injection H as <- <-. easy.
  - destruct (visit n r (mkv h [] c)) as [st|] eqn:Ev; [|discriminate H].
    inversion N as [|? ? Hn N']; subst.
    assert (Hp : pre h0 load (load r) (mkv h [] c)).
    { constructor; [exact Hk|]. intros o k Ho. left. cbn. rewrite (Hun r o); [easy|now left|easy]. }
    destruct (visit_post h0 load tgt Hload (load r) n r _ st eq_refl Hp Ev) as (P & F).
    destruct (IH (vheap st) (vcount st) h' c' N') as (IH1 & IH2).
    + apply (p_keys _ _ _ _ (q_pre _ _ _ _ _ _ P)).
    + intros r' x Hr' Hx. rewrite (q_other _ _ _ _ _ _ P); [cbn; apply (Hun r' x); [now right|easy]|].
      intros E. apply Hn. rewrite <- E, Hx. now apply in_map.
    + exact H.
    + split.
      * intros r' [<-|Hr']; [|now apply IH1]. exists (vseen st). intros x Hx k Hkx.
        assert (Fx : finished h0 st x).
        { destruct Hx as [->|(k' & Hk' & -> & _)]; [exact F|]. apply (q_new _ _ _ _ _ _ P); [easy|]. intros []. }
        destruct (Fx k Hkx) as (F1 & F2). split; [now apply IH2|easy].
      * intros x k Hx. apply IH2. now apply (q_keep _ _ _ _ _ _ P).
Qed.

Lemma visit_all_sound n rs : forall h c h' c', sound h0 h -> visit_all id choose roots n rs h c = Some (h', c') -> sound h0 h'.
Proof.
  induction rs as [|r rs IH]; intros h c h' c' S H; cbn [visit_all] in H; [now injection H as <- <-|].
  destruct (visit n r (mkv h [] c)) as [st|] eqn:Ev; [|discriminate H].
  apply (IH (vheap st) (vcount st) h' c'); [|easy]. exact (visit_sound n h0 r (mkv h [] c) st S Ev).
Qed.

Lemma all_shared n c h' c' : NoDup (map load roots) ->
  visit_all id choose roots n roots h0 c = Some (h', c') -> shared id h' roots.
Proof.
  intros N H.
  destruct (visit_all_ok n roots h0 c h' c' N (fun _ => eq_refl) (fun _ _ _ _ => eq_refl) H) as (V & _).
  assert (S : sound h0 h') by (apply (visit_all_sound n roots h0 c h' c'); [split; [easy|now left]|easy]).
  destruct S as (S1 & S2).
  (* every package reached belongs to the packages visited for a root *)
  assert (In_V : forall x, reached h' roots x -> exists r seen, In r roots /\
    (x = r \/ exists k, In k seen /\ x = tgt (load r) k /\ load x = load r) /\
    forall x, x = r \/ (exists k, In k seen /\ x = tgt (load r) k /\ load x = load r) ->
      forall k, In k (map fst (h0 x)) -> key_ok h' x k /\ In k seen).
  { intros x Hx. induction Hx as [r Hr|o k x Ho IH Hi].
    - destruct (V r Hr) as (seen & Hs). exists r, seen. split; [easy|]. split; [now left|exact Hs].
    - destruct IH as (r & seen & Hr & Hor & Hs).
      assert (Hkey : In k (map fst (h0 o))) by (rewrite <- S1; apply (key_in _ _ _ Hi)).
      destruct (Hs o Hor k Hkey) as (_ & Hseen).
      destruct (S2 o k x Hi) as [H0|(Hx & Ex)].
      + exists r, seen. split; [easy|]. split; [right|exact Hs]. exists k.
        assert (El : load o = load r) by (destruct Hor as [->|(k' & _ & _ & El)]; easy).
        destruct (Hload o k x H0) as (E1 & E2). rewrite El in E1, E2. easy.
      + destruct (V x Hx) as (seen' & Hs'). exists x, seen'. split; [easy|]. split; [now left|exact Hs']. }
  intros o k x r Ho Hi Hr E. destruct (In_V o Ho) as (r' & seen & _ & Hor & Hs).
  assert (Hkey : In k (map fst (h0 o))) by (rewrite <- S1; apply (key_in _ _ _ Hi)).
  destruct (Hs o Hor k Hkey) as (Hok & _). specialize (Hok r Hr E). unfold imports in Hi. congruence.
Qed.
End All.

End Proofs.
