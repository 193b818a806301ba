(** * helpgen: proofs about godoc *)

From Coq Require Import List String Ascii Bool Arith Lia Sorted Permutation.
From Verif Require Import GoLib GoLibFacts MapFacts ScanModel DocModel HelpModel HelpgenModel HelpgenSpec HelpgenProofs.
Import ListNotations.
Open Scope string_scope.
Open Scope list_scope.

Notation space_codes := [9; 10; 11; 12; 13; 32].
Lemma is_space_iff a : is_space a = true <-> In (nat_of_ascii a) space_codes.
Proof.
  unfold is_space. rewrite orb_true_iff, andb_true_iff, Nat.eqb_eq, !Nat.leb_le. cbn [In]. lia.
Qed.
Lemma is_space_not a : is_space a = false <-> ~ In (nat_of_ascii a) space_codes.
Proof. rewrite <- is_space_iff. destruct (is_space a); split; congruence. Qed.
Lemma all_space_cons a s : all_space (String a s) <-> In (nat_of_ascii a) space_codes /\ all_space s.
Proof.
  split.
  - intros H. split; [apply (H "" a s eq_refl)|]. intros x b y E. apply (H (String a x) b y). now rewrite E.
  - intros [H1 H2] x b y E. destruct x as [|c x]; cbn in E; injection E as -> E; [easy|]. now apply (H2 x b y).
Qed.

Lemma trim_left_spec s : exists x, s = (x ++ trim_left is_space s)%string /\ all_space x /\
  (forall a r, trim_left is_space s = String a r -> is_space a = false).
Proof.
  induction s as [|a s (x & E & A & B)]; [exists ""; split; [reflexivity|split; [now intros [|? ?]|discriminate]]|].
  cbn [trim_left]. destruct (is_space a) eqn:S.
  - exists (String a x). split; [cbn; now rewrite <- E|]. split; [|exact B]. apply all_space_cons. split; [now apply is_space_iff|exact A].
  - exists "". split; [reflexivity|]. split; [now intros [|? ?]|]. intros b r [= -> ->]. exact S.
Qed.
Lemma trim_right_spec s : exists y, s = (trim_right is_space s ++ y)%string /\ all_space y /\
  (forall a r, trim_right is_space s = (r ++ String a "")%string -> is_space a = false).
Proof.
  induction s as [|a s (y & E & A & B)]; [exists ""; split; [reflexivity|split; [now intros [|? ?]|now intros ? [|? ?]]]|].
  cbn [trim_right]. destruct (trim_right is_space s) as [|b t] eqn:T.
  - cbn in E. subst y. destruct (is_space a) eqn:S.
    + exists (String a s). split; [reflexivity|]. split; [|now intros ? [|? ?]]. apply all_space_cons. split; [now apply is_space_iff|exact A].
    + exists s. split; [reflexivity|]. split; [exact A|]. intros c [|d r] X; cbn in X; [injection X as <-; exact S|]. injection X as _ X. destruct r; discriminate.
  - exists y. split; [cbn in *; now rewrite <- E|]. split; [exact A|]. intros c r X. destruct r as [|d r]; cbn in X; [discriminate|]. injection X as -> X. now apply (B c r).
Qed.
Lemma trim_right_head s a r : trim_right is_space s = String a r -> exists r', s = String a r'.
Proof.
  destruct s as [|b s]; [discriminate|]. cbn [trim_right]. destruct (trim_right is_space s); [destruct (is_space b); [discriminate|]|]; intros [= <- _]; eauto.
Qed.
Lemma trim_right_space y : all_space y -> trim_right is_space y = "".
Proof.
  induction y as [|a y IH]; [reflexivity|]. intros H. apply all_space_cons in H as [H1 H2]. cbn [trim_right]. rewrite (IH H2).
  apply is_space_iff in H1. now rewrite H1.
Qed.
Lemma trim_right_app t : forall y, all_space y -> (forall a r, t = (r ++ String a "")%string -> is_space a = false) -> trim_right is_space (t ++ y) = t.
Proof.
  induction t as [|a t IH]; intros y Y H; cbn [append]; [now apply trim_right_space|]. cbn [trim_right].
  rewrite IH; [|exact Y|intros b r E; apply (H b (String a r)); now rewrite E].
  destruct t as [|b t]; [|reflexivity]. now rewrite (H a "" eq_refl).
Qed.
Lemma trim_left_app x : forall s, all_space x -> trim_left is_space (x ++ s) = trim_left is_space s.
Proof.
  induction x as [|a x IH]; intros s H; [reflexivity|]. apply all_space_cons in H as [H1 H2]. cbn [append trim_left].
  apply is_space_iff in H1. rewrite H1. now apply IH.
Qed.
Lemma trimmed_iff s t : trimmed s t <-> trim_space s = t.
Proof.
  split.
  - intros (x & y & -> & X & Y & B & E). unfold trim_space. rewrite trim_left_app by easy.
    destruct t as [|a t].
    + cbn. clear B E. rewrite <- (str_app_nil_r y), trim_left_app by easy. reflexivity.
    + cbn [append trim_left]. rewrite (proj2 (is_space_not a) (B a t eq_refl)).
      change (String a (t ++ y)) with ((String a t) ++ y)%string. apply trim_right_app; [exact Y|]. intros b r Eb. apply is_space_not. now apply (E b r).
  - intros <-. unfold trim_space. destruct (trim_left_spec s) as (x & E1 & X & B). destruct (trim_right_spec (trim_left is_space s)) as (y & E2 & Y & E).
    exists x, y. split; [now rewrite <- E2|]. split; [exact X|]. split; [exact Y|]. split.
    + intros a r H. apply is_space_not. destruct (trim_right_head _ _ _ H) as [r' H']. now apply (B a r').
    + intros a r H. apply is_space_not. now apply (E a r).
Qed.

Lemma cut_none c s : snd (cut c s) = None -> fst (cut c s) = s /\ forall x y, s <> (x ++ String c y)%string.
Proof.
  induction s as [|a s IH]; [split; [reflexivity|now intros [|? ?]]|]. cbn [cut]. destruct (Ascii.eqb_spec a c) as [->|Ne]; [discriminate|].
  destruct (cut c s) as [x y]. cbn in *. intros H. destruct (IH H) as [<- F]. split; [reflexivity|].
  intros [|b u] v; cbn; intros [= -> E]; [easy|]. now apply (F u v).
Qed.
Lemma cut_some c s r : snd (cut c s) = Some r -> s = (fst (cut c s) ++ String c r)%string /\ forall x y, fst (cut c s) <> (x ++ String c y)%string.
Proof.
  induction s as [|a s IH]; [discriminate|]. cbn [cut]. destruct (Ascii.eqb_spec a c) as [->|Ne]; [intros [= ->]; split; [reflexivity|now intros [|? ?]]|].
  destruct (cut c s) as [x y]. cbn in *. intros H. destruct (IH H) as [-> F]. split; [reflexivity|].
  intros [|b u] v; cbn; intros [= -> E]; [easy|]. now apply (F u v).
Qed.
Lemma cut_app c x y : (forall u v, x <> (u ++ String c v)%string) -> cut c (x ++ String c y) = (x, Some y).
Proof.
  induction x as [|a x IH]; intros H; cbn [append cut]; [now rewrite Ascii.eqb_refl|].
  destruct (Ascii.eqb_spec a c) as [->|Ne]; [destruct (H "" x eq_refl)|]. rewrite IH; [reflexivity|].
  intros u v E. apply (H (String a u) v). now rewrite E.
Qed.
Lemma cut_all c x : (forall u v, x <> (u ++ String c v)%string) -> cut c x = (x, None).
Proof.
  induction x as [|a x IH]; intros H; cbn [cut]; [reflexivity|].
  destruct (Ascii.eqb_spec a c) as [->|Ne]; [destruct (H "" x eq_refl)|]. rewrite IH; [reflexivity|].
  intros u v E. apply (H (String a u) v). now rewrite E.
Qed.

Definition no_space (s : string) : Prop := forall x y, s <> (x ++ String " " y)%string.
Lemma identifier_no_space s : identifier s -> no_space s.
Proof.
  intros (a & r & -> & Ha & Hr) x y E. destruct x as [|b x]; cbn in E; injection E as -> E; [discriminate|].
  apply Hr in E. discriminate.
Qed.
Lemma no_space_empty : no_space "".
Proof. now intros [|? ?]. Qed.

Lemma summary_iff name line s : no_space name ->
  (line = name /\ s = "" \/ line = (name ++ " " ++ s)%string \/ line <> name /\ (forall t, line <> (name ++ " " ++ t)%string) /\ s = line) <->
  (let '(word, words) := cut " " line in if String.eqb word name then match words with Some s => s | None => "" end else line) = s.
Proof.
  intros N. split.
  - intros [(-> & ->)|[->|(H1 & H2 & ->)]].
    + rewrite (cut_all " " name N), String.eqb_refl. reflexivity.
    + cbn [append]. rewrite (cut_app " " name s N), String.eqb_refl. reflexivity.
    + pose proof (cut_none " " line) as C1. pose proof (fun r => cut_some " " line r) as C2. destruct (cut " " line) as [w ws]. cbn in *.
      destruct (String.eqb_spec w name) as [->|]; [|reflexivity]. destruct ws as [r|].
      * destruct (C2 r eq_refl) as [E _]. destruct (H2 r). exact E.
      * destruct (C1 eq_refl) as [E _]. now destruct H1.
  - pose proof (cut_none " " line) as C1. pose proof (fun r => cut_some " " line r) as C2. destruct (cut " " line) as [w ws]. cbn in *.
    destruct (String.eqb_spec w name) as [->|Nw]; intros <-.
    + destruct ws as [r|]; [right; left; apply C2; reflexivity|]. left. split; [|reflexivity]. symmetry. apply C1. reflexivity.
    + right. right. assert (F : forall u v, name <> (u ++ String " " v)%string) by exact N. repeat split.
      * intros ->. destruct ws as [r|]; [destruct (C2 r eq_refl) as [E _]; now apply (F w r)|].
        destruct (C1 eq_refl) as [E _]. congruence.
      * intros t ->. destruct ws as [r|].
        -- destruct (C2 r eq_refl) as [E Fw]. assert (X : cut " " (name ++ String " " t) = (w, Some r)) by (rewrite E; now apply cut_app).
           rewrite (cut_app " " name t F) in X. injection X as -> _. easy.
        -- destruct (C1 eq_refl) as [E Fw]. now apply (Fw name t).
Qed.
Lemma godoc_iff name doc d : no_space name -> godoc name doc d <-> godoc_to_details name doc = (summary d, details d).
Proof.
  intros N. unfold godoc, godoc_to_details. split.
  - intros (line & O & D & S). apply (summary_iff name line (summary d) N) in S. destruct D as [(-> & ->)|(rest & -> & T)].
    + change newline with nl in O. rewrite (cut_all nl line) by exact O. cbv iota beta. destruct (cut " " line) as [w ws] eqn:C. rewrite S. reflexivity.
    + change newline with nl in *. rewrite (cut_app nl line rest) by exact O. apply trimmed_iff in T. rewrite T. destruct (cut " " line) as [w ws] eqn:C. rewrite S. reflexivity.
  - pose proof (cut_none nl doc) as C1. pose proof (fun r => cut_some nl doc r) as C2. destruct (cut nl doc) as [line rest]. cbn [fst snd] in *.
    intros H. exists line. destruct rest as [r|].
    + destruct (C2 r eq_refl) as [E F]. injection H as H1 H2. split; [exact F|]. split.
      * right. exists r. split; [exact E|]. now apply trimmed_iff.
      * apply (summary_iff name line (summary d) N). exact H1.
    + destruct (C1 eq_refl) as [E F]. injection H as H1 H2. split; [intros x y Exy; apply (F x y); rewrite <- E; exact Exy|]. split; [left; split; [congruence|now symmetry]|].
      apply (summary_iff name line (summary d) N). exact H1.
Qed.
