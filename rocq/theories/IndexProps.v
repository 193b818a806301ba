(** * C52: each package is indexed once, and what the parser knows does not depend on the order of the requests *)

From Coq Require Import String List Bool Arith Lia Permutation.
Import ListNotations.
From Verif Require Import GoLib GoLibFacts MapFacts ErrorsModel ErrorsProofs IndexModel.
Open Scope string_scope.
Open Scope list_scope.

(** ** What the properties speak about *)

(** The last of several values for a name. *)
Definition latest {A} (n : string) (l : list (string * A)) : option A :=
  match find (fun x => String.eqb n (fst x)) (rev l) with Some x => Some (snd x) | None => None end.

Section Spec.
Variable Info Schema : Type.
Variable path name : nat -> string.
Variable marks : nat -> option (list (string * list mval)).
Variable decls : nat -> list (string * Info).
Variable overrides : list (string * override Schema).

(** The first value of a marker. *)
Definition first_value (ms : list (string * list mval)) (n : string) : option mval :=
  match mget String.eqb ms n with Some (v :: _) => Some v | _ => None end.

(** The override for a package: by its path without the vendor directory. *)
Definition overrider (p : nat) : option (override Schema) := mget String.eqb overrides (non_vendor_path (path p)).

(** Whether its types are wanted: not if there is an override that has all. *)
Definition wanted (p : nat) : bool := match overrider p with Some o => o_add _ o | None => true end.

(** Its markers, if they are right and it is not to be skipped. *)
Definition usable (p : nat) : option (list (string * list mval)) :=
  match marks p with
  | Some ms => match first_value ms "kubebuilder:skip" with Some _ => None | None => if wanted p then Some ms else None end
  | None => None
  end.

(** The information on a type of the package. *)
Definition type_of (p : nat) (n : string) : option Info :=
  match usable p with Some _ => latest n (decls p) | None => None end.

(** Its group and version: the version is the package's name if there is no marker for it. *)
Definition group_of (p : nat) : option (string * string) :=
  match usable p with
  | Some ms =>
      match first_value ms "groupName", first_value ms "versionName" with
      | Some (MStr g), Some (MStr v) => Some (g, v)
      | Some (MStr g), None => Some (g, name p)
      | _, _ => None
      end
  | None => None
  end.

(** The schemata that are set for it. *)
Definition preset_of (p : nat) (n : string) : option Schema :=
  match overrider p with Some o => latest n (o_before _ o ++ o_after _ o) | None => None end.

(** A marker for the group or the version that is not a string. *)
Definition misused (p : nat) : bool :=
  match usable p with
  | Some ms =>
      match first_value ms "groupName", first_value ms "versionName" with
      | Some MOther, _ | Some _, Some MOther => true
      | _, _ => false
      end
  | None => false
  end.

(** Its markers are looked at, and wrong. *)
Definition broken (p : nat) : bool := wanted p && match marks p with None => true | Some _ => false end.

(** ** Proofs *)

Notation index := (index Info Schema).
Notation types s := (i_types Info Schema s).
Notation groups s := (i_groups Info Schema s).
Notation schemata s := (i_schemata Info Schema s).
Notation packages s := (i_packages Info Schema s).
Notation errors s := (i_errors Info Schema s).
Notation checked s := (i_checked Info Schema s).
Notation need_package := (need_package Info Schema path name marks decls overrides).
Notation need_packages := (need_packages Info Schema path name marks decls overrides).
Notation add_package := (add_package Info Schema name marks decls).
Notation is_loaded := (is_loaded Info Schema).
Notation set_loaded := (set_loaded Info Schema).
Notation set_schema := (set_schema Info Schema).
Notation add_type := (add_type Info Schema).
Notation index_types := (index_types Info Schema name marks decls).

Lemma tident_spec a b : tident_eqb a b = true <-> a = b.
Proof.
  unfold tident_eqb. rewrite andb_true_iff, Nat.eqb_eq, String.eqb_eq. destruct a, b; cbn. split; [now intros [-> ->]|now intros [= -> ->]].
Qed.

Lemma loaded_spec p s : is_loaded p s = true <-> In p (packages s).
Proof.
  unfold IndexModel.is_loaded. rewrite existsb_exists. split.
  - intros (q & H & E). apply Nat.eqb_eq in E. now subst q.
  - intros H. exists p. split; auto. apply Nat.eqb_refl.
Qed.

Lemma latest_app {A} n (l1 l2 : list (string * A)) :
  latest n (l1 ++ l2) = match latest n l2 with Some v => Some v | None => latest n l1 end.
Proof.
  unfold latest. rewrite rev_app_distr. set (f := fun x : string * A => String.eqb n (fst x)).
  induction (rev l2) as [|x l IH]; cbn; [now destruct (find f (rev l1))|]. destruct (f x); auto.
Qed.

Lemma latest_cons {A} n (x : string * A) l : latest n (x :: l) =
  match latest n l with Some v => Some v | None => if String.eqb n (fst x) then Some (snd x) else None end.
Proof. change (x :: l) with ([x] ++ l). rewrite latest_app. unfold latest at 2. cbn. now destruct (String.eqb n (fst x)). Qed.

Lemma types_fold p l : forall s, let s' := fold_left (add_type p) l s in
  packages s' = packages s /\ groups s' = groups s /\ schemata s' = schemata s /\ errors s' = errors s /\ checked s' = checked s /\
  (forall n, mget tident_eqb (types s') (p, n) = match latest n l with Some v => Some v | None => mget tident_eqb (types s) (p, n) end) /\
  (forall q n, q <> p -> mget tident_eqb (types s') (q, n) = mget tident_eqb (types s) (q, n)).
Proof.
  induction l as [|[m i] l IH]; intros s; [now cbn|]. cbn [fold_left]. destruct (IH (add_type p s (m, i))) as (A & B & C & D & E & F & G).
  repeat split; auto.
  - intros n. rewrite F, latest_cons. destruct (latest n l); auto. cbn [IndexModel.add_type i_types fst snd].
    destruct (String.eqb_spec n m) as [->|N]; [apply (mget_mset_eq _ _ _ tident_spec)|]. apply (mget_mset_ne _ _ _ tident_spec). congruence.
  - intros q n N. rewrite G by auto. cbn [IndexModel.add_type i_types fst snd]. apply (mget_mset_ne _ _ _ tident_spec). congruence.
Qed.

Lemma schemata_fold p l : forall s, let s' := fold_left (set_schema p) l s in
  packages s' = packages s /\ groups s' = groups s /\ types s' = types s /\ errors s' = errors s /\ checked s' = checked s /\
  (forall n, mget tident_eqb (schemata s') (p, n) = match latest n l with Some v => Some v | None => mget tident_eqb (schemata s) (p, n) end) /\
  (forall q n, q <> p -> mget tident_eqb (schemata s') (q, n) = mget tident_eqb (schemata s) (q, n)).
Proof.
  induction l as [|[m i] l IH]; intros s; [now cbn|]. cbn [fold_left]. destruct (IH (set_schema p s (m, i))) as (A & B & C & D & E & F & G).
  repeat split; auto.
  - intros n. rewrite F, latest_cons. destruct (latest n l); auto. cbn [IndexModel.set_schema i_schemata fst snd].
    destruct (String.eqb_spec n m) as [->|N]; [apply (mget_mset_eq _ _ _ tident_spec)|]. apply (mget_mset_ne _ _ _ tident_spec). congruence.
  - intros q n N. rewrite G by auto. cbn [IndexModel.set_schema i_schemata fst snd]. apply (mget_mset_ne _ _ _ tident_spec). congruence.
Qed.

(** What one call adds. *)
Record adds (p : nat) (s s' : index) : Prop := {
  a_packages : packages s' = p :: packages s;
  a_types : forall q n, mget tident_eqb (types s') (q, n) =
    if Nat.eqb q p then match type_of p n with Some i => Some i | None => mget tident_eqb (types s) (q, n) end else mget tident_eqb (types s) (q, n);
  a_groups : forall q, mget Nat.eqb (groups s') q =
    if Nat.eqb q p then match group_of p with Some g => Some g | None => mget Nat.eqb (groups s) q end else mget Nat.eqb (groups s) q;
  a_schemata : forall q n, mget tident_eqb (schemata s') (q, n) =
    if Nat.eqb q p then match preset_of p n with Some i => Some i | None => mget tident_eqb (schemata s) (q, n) end else mget tident_eqb (schemata s) (q, n);
  a_errors : errors s' = (if broken p then [p; p] else []) ++ errors s;
  a_checked : checked s' = (if wanted p then [p] else []) ++ checked s }.

Lemma add_package_adds p s : is_loaded p s = false -> wanted p = true ->
  match add_package p s with
  | None => misused p = true
  | Some s' => misused p = false /\ packages s' = p :: packages s /\
     (forall q n, mget tident_eqb (types s') (q, n) =
       if Nat.eqb q p then match type_of p n with Some i => Some i | None => mget tident_eqb (types s) (q, n) end else mget tident_eqb (types s) (q, n)) /\
     (forall q, mget Nat.eqb (groups s') q =
       if Nat.eqb q p then match group_of p with Some g => Some g | None => mget Nat.eqb (groups s) q end else mget Nat.eqb (groups s) q) /\
     schemata s' = schemata s /\ errors s' = (if broken p then [p; p] else []) ++ errors s /\ checked s' = p :: checked s
  end.
Proof.
  intros L W. unfold IndexModel.add_package. rewrite L. unfold IndexModel.index_types, misused, type_of, group_of, broken, usable. rewrite W. cbn [andb].
  assert (SL : forall s' : index, packages s' = packages s -> set_loaded p (check Info Schema p s') =
    mkIndex Info Schema (p :: packages s) (types s') (groups s') (schemata s') (errors s') (p :: checked s')).
  { intros s' E. unfold IndexModel.set_loaded, IndexModel.is_loaded, check. cbn [i_packages i_types i_groups i_schemata i_errors i_checked].
    rewrite E. unfold IndexModel.is_loaded in L. now rewrite L. }
  destruct (marks p) as [ms|].
  - unfold set_group. change IndexModel.get_first with first_value. destruct (first_value ms "kubebuilder:skip") as [v|] eqn:Sk.
    + rewrite SL by auto. cbn. repeat split; intros; destruct (Nat.eqb q p); auto.
    + destruct (first_value ms "groupName") as [[g|]|] eqn:Gn.
      * assert (Go : forall version, match Some (fold_left (add_type p) (decls p) (mkIndex Info Schema (packages s) (types s)
                       (mset Nat.eqb (groups s) p (g, version)) (schemata s) (errors s) (checked s))) with
                | Some s' => packages (set_loaded p (check Info Schema p s')) = p :: packages s /\
                   (forall q n, mget tident_eqb (types (set_loaded p (check Info Schema p s'))) (q, n) =
                      if Nat.eqb q p then match latest n (decls p) with Some i => Some i | None => mget tident_eqb (types s) (q, n) end else mget tident_eqb (types s) (q, n)) /\
                   (forall q, mget Nat.eqb (groups (set_loaded p (check Info Schema p s'))) q = if Nat.eqb q p then Some (g, version) else mget Nat.eqb (groups s) q) /\
                   schemata (set_loaded p (check Info Schema p s')) = schemata s /\ errors (set_loaded p (check Info Schema p s')) = errors s /\
                   checked (set_loaded p (check Info Schema p s')) = p :: checked s
                | None => False end).
        { intros version. set (s0 := mkIndex _ _ _ _ _ _ _ _). destruct (types_fold p (decls p) s0) as (A & B & C & D & E & F & G).
          rewrite SL by exact A. cbn [i_packages i_types i_groups i_schemata i_errors i_checked]. rewrite B, C, D, E. unfold s0 at 1 2 3 4.
          cbn [i_groups i_schemata i_errors i_checked]. repeat split; auto.
          - intros q n. destruct (Nat.eqb_spec q p) as [->|N]; [apply F|now apply G].
          - intros q. destruct (Nat.eqb_spec q p) as [->|N]; [apply (mget_mset_eq _ _ _ Nat.eqb_eq)|now apply (mget_mset_ne _ _ _ Nat.eqb_eq)]. }
        destruct (first_value ms "versionName") as [[v|]|]; auto.
      * now destruct (first_value ms "versionName") as [[v|]|].
      * destruct (types_fold p (decls p) s) as (A & B & C & D & E & F & G). rewrite SL by exact A.
        cbn [i_packages i_types i_groups i_schemata i_errors i_checked]. rewrite B, C, D, E. repeat split; auto.
        -- intros q n. destruct (Nat.eqb_spec q p) as [->|N]; [apply F|now apply G].
        -- intros q. now destruct (Nat.eqb q p).
  - unfold report. cbn [i_packages i_types i_groups i_schemata i_errors i_checked].
    rewrite SL by auto. cbn. repeat split; intros; destruct (Nat.eqb q p); auto.
Qed.

Lemma need_package_adds p s : is_loaded p s = false ->
  match need_package p s with None => misused p = true | Some s' => misused p = false /\ adds p s s' end.
Proof.
  intros L. unfold IndexModel.need_package. rewrite L. fold (overrider p). destruct (overrider p) as [o|] eqn:Ov.
  - unfold run_override. destruct (schemata_fold p (o_before _ o) s) as (A1 & B1 & C1 & D1 & E1 & F1 & G1).
    set (s1 := fold_left (set_schema p) (o_before _ o) s) in *. assert (L1 : is_loaded p s1 = false) by (unfold IndexModel.is_loaded in *; now rewrite A1).
    assert (Wo : wanted p = o_add _ o) by (unfold wanted; now rewrite Ov).
    destruct (o_add _ o) eqn:Oa.
    + assert (X := add_package_adds p s1 L1 Wo). destruct (add_package p s1) as [s2|]; auto.
      destruct X as (M & A2 & B2 & C2 & D2 & E2 & F2). split; auto.
      destruct (schemata_fold p (o_after _ o) s2) as (A3 & B3 & C3 & D3 & E3 & F3 & G3). set (s3 := fold_left (set_schema p) (o_after _ o) s2) in *.
      assert (L3 : set_loaded p s3 = s3).
      { unfold IndexModel.set_loaded. assert (is_loaded p s3 = true) as ->; auto. apply loaded_spec. rewrite A3, A2. now left. }
      rewrite L3. constructor; try congruence.
      * intros q n. now rewrite C3, B2, C1.
      * intros q. now rewrite B3, C2, B1.
      * intros q n. destruct (Nat.eqb_spec q p) as [->|N].
        -- rewrite F3, D2, F1. unfold preset_of. rewrite Ov, latest_app. now destruct (latest n (o_after _ o)).
        -- now rewrite G3, D2, G1.
      * rewrite Wo. cbn [app]. congruence.
    + assert (U : usable p = None) by (unfold usable; rewrite Wo; destruct (marks p) as [ms|]; auto; now destruct (first_value ms "kubebuilder:skip")).
      split; [unfold misused; now rewrite U|].
      destruct (schemata_fold p (o_after _ o) s1) as (A3 & B3 & C3 & D3 & E3 & F3 & G3). set (s3 := fold_left (set_schema p) (o_after _ o) s1) in *.
      assert (L3 : is_loaded p s3 = false) by (unfold IndexModel.is_loaded in *; now rewrite A3).
      unfold IndexModel.set_loaded. rewrite L3. constructor; cbn [i_packages i_types i_groups i_schemata i_errors i_checked].
      * congruence.
      * intros q n. unfold type_of. rewrite U, C3, C1. now destruct (Nat.eqb q p).
      * intros q. unfold group_of. rewrite U, B3, B1. now destruct (Nat.eqb q p).
      * intros q n. destruct (Nat.eqb_spec q p) as [->|N].
        -- rewrite F3, F1. unfold preset_of. rewrite Ov, latest_app. now destruct (latest n (o_after _ o)).
        -- now rewrite G3, G1.
      * unfold broken. rewrite Wo. cbn. congruence.
      * rewrite Wo. cbn. congruence.
  - assert (Wo : wanted p = true) by (unfold wanted; now rewrite Ov).
    assert (X := add_package_adds p s L Wo). destruct (add_package p s) as [s2|]; auto.
    destruct X as (M & A2 & B2 & C2 & D2 & E2 & F2). split; auto. constructor; auto.
    + intros q n. unfold preset_of. rewrite Ov, D2. now destruct (Nat.eqb q p).
    + now rewrite Wo.
Qed.

(** What is known once the packages of a list have been asked for. *)
Record knows (l : list nat) (s : index) : Prop := {
  k_packages : NoDup (packages s) /\ forall p, In p (packages s) <-> In p l;
  k_types : forall p n, mget tident_eqb (types s) (p, n) = if existsb (Nat.eqb p) l then type_of p n else None;
  k_groups : forall p, mget Nat.eqb (groups s) p = if existsb (Nat.eqb p) l then group_of p else None;
  k_schemata : forall p n, mget tident_eqb (schemata s) (p, n) = if existsb (Nat.eqb p) l then preset_of p n else None;
  k_errors : forall p, count_occ Nat.eq_dec (errors s) p = if existsb (Nat.eqb p) l && broken p then 2 else 0;
  k_checked : NoDup (checked s) /\ forall p, In p (checked s) <-> In p l /\ wanted p = true }.

Lemma mem_spec p l : existsb (Nat.eqb p) l = true <-> In p l.
Proof.
  rewrite existsb_exists. split; [|exists p; split; [auto|apply Nat.eqb_refl]]. intros (q & H & E). apply Nat.eqb_eq in E. now subst q.
Qed.

Lemma knows_more l s p s' : knows l s -> is_loaded p s = false -> adds p s s' -> knows (l ++ [p]) s'.
Proof.
  intros [[K1 K1'] K2 K3 K4 K5 [K6 K6']] L [A1 A2 A3 A4 A5 A6].
  assert (N : ~ In p l) by (rewrite <- K1'; rewrite <- loaded_spec; now rewrite L).
  assert (Nb : existsb (Nat.eqb p) l = false) by (destruct (existsb (Nat.eqb p) l) eqn:E; auto; now apply mem_spec in E).
  assert (Mem : forall q, existsb (Nat.eqb q) (l ++ [p]) = existsb (Nat.eqb q) l || Nat.eqb q p) by (intros q; rewrite existsb_app; cbn; now rewrite orb_false_r).
  constructor.
  - rewrite A1. split; [constructor; auto; now rewrite K1'|]. intros q. rewrite in_app_iff. cbn. rewrite <- K1'. tauto.
  - intros q n. rewrite A2, Mem. destruct (Nat.eqb_spec q p) as [->|M]; [rewrite K2, Nb; cbn; now destruct (type_of p n)|rewrite orb_false_r; apply K2].
  - intros q. rewrite A3, Mem. destruct (Nat.eqb_spec q p) as [->|M]; [rewrite K3, Nb; cbn; now destruct (group_of p)|rewrite orb_false_r; apply K3].
  - intros q n. rewrite A4, Mem. destruct (Nat.eqb_spec q p) as [->|M]; [rewrite K4, Nb; cbn; now destruct (preset_of p n)|rewrite orb_false_r; apply K4].
  - intros q. rewrite A5, Mem, count_occ_app, K5. destruct (Nat.eqb_spec q p) as [->|M].
    + rewrite Nb. cbn. destruct (broken p); cbn; auto. destruct (Nat.eq_dec p p); [auto|easy].
    + rewrite orb_false_r. destruct (broken p); cbn; auto. destruct (Nat.eq_dec p q); [congruence|auto].
  - rewrite A6. split.
    + destruct (wanted p); auto. constructor; auto. rewrite K6'. tauto.
    + intros q. rewrite !in_app_iff, K6'. cbn. destruct (wanted p) eqn:W; cbn; [|intuition congruence].
      split; [intros [[<-|[]]|[H1 H2]]; auto|]. intros [[H|[<-|[]]] H2]; auto.
Qed.

Lemma knows_same l s p : knows l s -> In p l -> knows (l ++ [p]) s.
Proof.
  intros [[K1 K1'] K2 K3 K4 K5 [K6 K6']] H. assert (B := proj2 (mem_spec p l) H).
  assert (Mem : forall q, existsb (Nat.eqb q) (l ++ [p]) = existsb (Nat.eqb q) l).
  { intros q. rewrite existsb_app. cbn. rewrite orb_false_r. destruct (Nat.eqb_spec q p) as [->|M]; [now rewrite B|apply orb_false_r]. }
  assert (I : forall q, In q (l ++ [p]) <-> In q l).
  { intros q. rewrite in_app_iff. cbn. split; [intros [X|[<-|[]]]; auto|auto]. }
  constructor; try (intros; rewrite Mem; auto).
  - split; auto. intros q. now rewrite I.
  - split; auto. intros q. now rewrite I.
Qed.

Lemma needs_know l : forall l0 s, knows l0 s -> (forall p, In p l0 -> misused p = false) ->
  match need_packages l s with
  | None => exists p, In p (l0 ++ l) /\ misused p = true
  | Some s' => knows (l0 ++ l) s' /\ forall p, In p (l0 ++ l) -> misused p = false
  end.
Proof.
  induction l as [|p l IH]; intros l0 s K M; cbn [IndexModel.need_packages]; [now rewrite app_nil_r|].
  replace (l0 ++ p :: l) with ((l0 ++ [p]) ++ l) by now rewrite <- app_assoc.
  destruct (is_loaded p s) eqn:L.
  - unfold IndexModel.need_package at 1. rewrite L. assert (I : In p l0) by (apply (k_packages _ _ K); now apply loaded_spec).
    apply IH; [now apply knows_same|]. intros q H. apply in_app_iff in H. destruct H as [H|[<-|[]]]; auto.
  - assert (X := need_package_adds p s L). destruct (need_package p s) as [s1|].
    + destruct X as [X1 X2]. apply IH; [now apply (knows_more l0 s)|]. intros q H. apply in_app_iff in H. destruct H as [H|[<-|[]]]; auto.
    + exists p. split; auto. rewrite !in_app_iff. cbn. auto.
Qed.

Lemma knows_none : knows [] (index0 Info Schema).
Proof. constructor; cbn; auto; split; auto; try constructor; tauto. Qed.

(** ** The theorems *)

(** After any requests, whatever their order and however often: every package is entered and checked once, and its types, group and
    schemata are those that its declarations, markers and override say; it panics if and only if a marker for the group or version
    is no string. *)
Theorem index_exact l :
  match need_packages l (index0 Info Schema) with
  | None => exists p, In p l /\ misused p = true
  | Some s => knows l s /\ forall p, In p l -> misused p = false
  end.
Proof. apply (needs_know l [] _ knows_none). easy. Qed.

(** The order, and repetitions, do not matter. *)
Theorem index_any_order l l' : (forall p, In p l <-> In p l') ->
  match need_packages l (index0 Info Schema), need_packages l' (index0 Info Schema) with
  | None, None => True
  | Some s, Some s' =>
      (forall k, mget tident_eqb (types s) k = mget tident_eqb (types s') k) /\
      (forall p, mget Nat.eqb (groups s) p = mget Nat.eqb (groups s') p) /\
      (forall k, mget tident_eqb (schemata s) k = mget tident_eqb (schemata s') k) /\
      Permutation (checked s) (checked s') /\ Permutation (errors s) (errors s')
  | _, _ => False
  end.
Proof.
  intros E. assert (X := index_exact l). assert (Y := index_exact l').
  assert (B : forall p, existsb (Nat.eqb p) l = existsb (Nat.eqb p) l') by (intros p; apply eq_true_iff_eq; rewrite !mem_spec; apply E).
  destruct (need_packages l _) as [s|], (need_packages l' _) as [s'|].
  - destruct X as [X _], Y as [Y _]. repeat split.
    + intros [p n]. rewrite (k_types _ _ X), (k_types _ _ Y). now rewrite B.
    + intros p. rewrite (k_groups _ _ X), (k_groups _ _ Y). now rewrite B.
    + intros [p n]. rewrite (k_schemata _ _ X), (k_schemata _ _ Y). now rewrite B.
    + destruct (k_checked _ _ X) as [N C], (k_checked _ _ Y) as [N' C']. apply NoDup_Permutation; auto. intros p. now rewrite C, C', E.
    + apply (Permutation_count_occ Nat.eq_dec). intros p. rewrite (k_errors _ _ X), (k_errors _ _ Y). now rewrite B.
  - destruct X as [_ X], Y as (p & H & Y). apply E in H. rewrite X in Y by auto. discriminate.
  - destruct Y as [_ Y], X as (p & H & X). apply E in H. rewrite Y in X by auto. discriminate.
  - exact I.
Qed.

(** Asking again does nothing. *)
Theorem index_again p s s' : need_package p s = Some s' -> need_package p s' = Some s' /\ add_package p s' = Some s'.
Proof.
  intros H. assert (L : is_loaded p s' = true).
  { destruct (is_loaded p s) eqn:L; [unfold IndexModel.need_package in H; rewrite L in H; now injection H as <-|].
    assert (X := need_package_adds p s L). rewrite H in X. destruct X as [_ X]. apply loaded_spec. rewrite (a_packages _ _ _ X). now left. }
  unfold IndexModel.need_package, IndexModel.add_package. now rewrite L.
Qed.
End Spec.

Lemma vendor_overlap x y t : ("/vendor/" ++ x)%string = (t ++ "/vendor/" ++ y)%string ->
  (t = "" /\ x = y) \/ (t = "/vendor" /\ x = ("vendor/" ++ y)%string) \/ str_contains x "/vendor/" = true.
Proof.
  intros E. destruct t as [|c1 t]; [left; split; auto; cbn in E; now injection E|]. right.
  do 6 (destruct t as [|? t]; [cbn in E; discriminate|]). destruct t as [|? t]; cbn in E.
  - injection E as <- <- <- <- <- <- <- E. left. auto.
  - injection E as <- <- <- <- <- <- <- <- E. right. apply contains_iff. now exists t, y.
Qed.

(** A vendored copy has the same override. *)
Theorem vendored_override Schema path (overrides : list (string * override Schema)) p q dir :
  path p = (dir ++ "/vendor/" ++ path q)%string -> (forall d, dir <> (d ++ "/vendor")%string) ->
  str_contains (path q) "/vendor/" = false -> has_prefix "vendor/" (path q) = false ->
  overrider Schema path overrides p = overrider Schema path overrides q.
Proof.
  intros E D C P. unfold overrider. f_equal. rewrite (nvp_id (path q) C).
  destruct (nvp_cases (path p)) as [[N _]|(d & E2 & C2)].
  - exfalso. rewrite (proj2 (contains_iff _ _)) in N; [discriminate|]. now exists dir, (path q).
  - rewrite E2 in E. set (r := non_vendor_path (path p)) in *. clearbody r. clear E2.
    apply app_split in E as [(t & -> & E)|(t & -> & E)]; apply vendor_overlap in E as [[-> E]|[[-> E]|E]]; try congruence.
    + now destruct (D d).
    + rewrite E in P. cbn in P. discriminate.
Qed.

(** ** Examples *)

Section Example.
Let paths (p : nat) : string := match p with 0 => "example.com/api/v1" | 1 => "example.com/vendor/k8s.io/apimachinery/pkg/api/resource" | 2 => "k8s.io/apimachinery/pkg/apis/meta/v1" | _ => "example.com/util" end.
Let names (p : nat) : string := match p with 0 => "v1" | 1 => "resource" | 2 => "v1" | _ => "util" end.
Let xmarks (p : nat) : option (list (string * list mval)) :=
  match p with 0 => Some [("groupName", [MStr "g.example.com"])] | 1 => Some [] | 2 => Some [("groupName", [MStr "meta.k8s.io"]); ("versionName", [MStr "v1beta1"])]
  | 3 => Some [("kubebuilder:skip", [MOther])] | _ => None end.
Let xdecls (p : nat) : list (string * nat) := match p with 0 => [("Foo", 1); ("Bar", 2)] | 1 => [("Quantity", 3); ("Format", 4)] | 2 => [("ObjectMeta", 5); ("Time", 6)] | _ => [("Util", 7)] end.
Let xover : list (string * override string) :=
  [("k8s.io/apimachinery/pkg/api/resource", mkOverride _ [("Quantity", "int-or-string")] false []);
   ("k8s.io/apimachinery/pkg/apis/meta/v1", mkOverride _ [("ObjectMeta", "object"); ("Time", "date-time")] true [("ObjectMeta", "object with names")])].

Example index_example :
  match need_packages nat string paths names xmarks xdecls xover [0; 1; 2; 3; 4; 0; 2] (index0 nat string) with
  | Some s => i_groups _ _ s = [(0, ("g.example.com", "v1")); (2, ("meta.k8s.io", "v1beta1"))] /\
      map fst (i_types _ _ s) = [(0, "Foo"); (0, "Bar"); (2, "ObjectMeta"); (2, "Time")] /\
      i_schemata _ _ s = [((1, "Quantity"), "int-or-string"); ((2, "ObjectMeta"), "object with names"); ((2, "Time"), "date-time")] /\
      i_errors _ _ s = [4; 4] /\ i_checked _ _ s = [4; 3; 2; 0]
  | None => False
  end.
Proof. vm_compute. repeat split. Qed.

(** ** What does not hold *)

(** "Every type of a package that was asked for is known": not with an override that does not add the package. *)
Theorem all_types_known_refuted : ~ (forall l s p n, need_packages nat string paths names xmarks xdecls xover l (index0 nat string) = Some s ->
  In p l -> latest n (xdecls p) <> None -> xmarks p = Some [] -> mget tident_eqb (i_types _ _ s) (p, n) <> None).
Proof. intros H. specialize (H [1] _ 1 "Format" eq_refl). vm_compute in H. apply H; auto; discriminate. Qed.

(** "It does not matter whether AddPackage is called first": then the override is not used. *)
Theorem add_first_refuted : ~ (forall p s1 s2 s3 n, add_package nat string names xmarks xdecls p (index0 nat string) = Some s1 ->
  need_package nat string paths names xmarks xdecls xover p s1 = Some s2 -> need_package nat string paths names xmarks xdecls xover p (index0 nat string) = Some s3 ->
  mget tident_eqb (i_schemata _ _ s2) (p, n) = mget tident_eqb (i_schemata _ _ s3) (p, n)).
Proof. intros H. specialize (H 2 _ _ _ "Time" eq_refl eq_refl eq_refl). vm_compute in H. discriminate. Qed.

(** "A version marker is enough". *)
Theorem version_alone_refuted : ~ (forall ms s p, need_packages nat string paths names (fun _ => Some ms) xdecls [] [p] (index0 nat string) = Some s ->
  first_value ms "versionName" <> None -> mget Nat.eqb (i_groups _ _ s) p <> None).
Proof. intros H. specialize (H [("versionName", [MStr "v1"])] _ 0 eq_refl). vm_compute in H. apply H; auto; discriminate. Qed.
End Example.

Print Assumptions index_exact.
Print Assumptions index_any_order.
Print Assumptions index_again.
Print Assumptions vendored_override.
Print Assumptions all_types_known_refuted.
Print Assumptions add_first_refuted.
Print Assumptions version_alone_refuted.
