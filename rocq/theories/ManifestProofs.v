(** * The manifests: proofs *)

From Coq Require Import String Ascii List Bool Arith Lia.
Import ListNotations.
From Verif Require Import GoLib GoLibFacts MapFacts GenallModel ManifestModel ManifestSpec.
Open Scope string_scope.
Open Scope nat_scope.
Open Scope list_scope.

(** ** Maps *)

Notation get := (mget String.eqb).
Notation set := (mset String.eqb).
Notation del := (mdel String.eqb).

Lemma get_set_eq (m : object) k v : get (set m k v) k = Some v.
Proof. apply (mget_mset_eq _ _ _ String.eqb_eq). Qed.

Lemma get_set_ne (m : object) k k' v : k' <> k -> get (set m k v) k' = get m k'.
Proof. apply (mget_mset_ne _ _ _ String.eqb_eq). Qed.

Lemma get_del_ne (m : object) k k' : k' <> k -> get (del m k) k' = get m k'.
Proof.
  intros N. induction m as [|[j v] m IH]; cbn; auto. destruct (String.eqb_spec k j) as [->|].
  - destruct (String.eqb_spec k' j); [congruence|easy].
  - cbn. now rewrite IH.
Qed.

Lemma get_none (m : object) k : get m k = None <-> ~ In k (map fst m).
Proof. apply (mget_none _ _ _ String.eqb_eq). Qed.

Lemma get_del_eq (m : object) k : NoDup (map fst m) -> get (del m k) k = None.
Proof.
  induction m as [|[j v] m IH]; cbn; auto. intros D. apply NoDup_cons_iff in D. destruct D as [A D].
  destruct (String.eqb_spec k j) as [->|].
  - now apply get_none.
  - cbn. destruct (String.eqb_spec k j); [congruence|]. now apply IH.
Qed.

Lemma del_keys (m : object) k x : In x (map fst (del m k)) -> In x (map fst m).
Proof.
  induction m as [|[j v] m IH]; cbn; auto. destruct (String.eqb k j); cbn; auto. intros [H|H]; auto.
Qed.

Lemma del_nodup (m : object) k : NoDup (map fst m) -> NoDup (map fst (del m k)).
Proof.
  induction m as [|[j v] m IH]; cbn; auto. intros D. apply NoDup_cons_iff in D. destruct D as [A D].
  destruct (String.eqb k j); auto. cbn. constructor; auto. intros H. apply A. now apply del_keys in H.
Qed.

Lemma set_nodup (m : object) k v : NoDup (map fst m) -> NoDup (map fst (set m k v)).
Proof. apply (mset_nodup _ _ _ String.eqb_eq). Qed.

(** ** Trees *)

Lemma go_top m : go_tree (Map m) -> NoDup (map fst m).
Proof. intros H. now apply (H []). Qed.

Lemma go_sub m k v : go_tree (Map m) -> get m k = Some v -> go_tree v.
Proof. intros H G p m' N. apply (H (Key k :: p) m'). cbn. now rewrite G. Qed.

Lemma go_map m : NoDup (map fst m) -> (forall k v, get m k = Some v -> go_tree v) -> go_tree (Map m).
Proof.
  intros D H [|[k|i] p] m'; cbn.
  - now intros [= <-].
  - destruct (get m k) as [v|] eqn:G; [|discriminate]. now apply (H k v G).
  - discriminate.
Qed.

Lemma look_key k p m : look (Key k :: p) (Map m) = match get m k with Some v => look p v | None => None end.
Proof. unfold look. cbn. now destruct (get m k). Qed.

Lemma look_index i p m : look (Index i :: p) (Map m) = None.
Proof. reflexivity. Qed.

Lemma go_scalar x : go_tree (Scalar x).
Proof. intros [|[k|i] p] m; discriminate. Qed.

Lemma del_tree m k : go_tree (Map m) ->
  go_tree (Map (del m k)) /\
  forall p, (below [Key k] p -> look p (Map (del m k)) = None) /\ (~ below [Key k] p -> look p (Map (del m k)) = look p (Map m)).
Proof.
  intros G. assert (D := go_top m G). split.
  - apply go_map. now apply del_nodup. intros j v H. apply (go_sub m j); auto.
    destruct (String.eqb_spec j k) as [->|]. rewrite get_del_eq in H by auto. discriminate. now rewrite get_del_ne in H.
  - intros p. split.
    + intros (r & ->). cbn [app]. rewrite look_key, get_del_eq; auto.
    + intros N. destruct p as [|[j|i] p]; auto. rewrite !look_key. rewrite get_del_ne; auto.
      intros ->. apply N. now exists p.
Qed.

(** Replacing what is below a key. *)
Lemma set_tree m k v : go_tree (Map m) -> go_tree v ->
  go_tree (Map (set m k v)) /\
  (forall p, look (Key k :: p) (Map (set m k v)) = look p v) /\
  (forall p, ~ below [Key k] p -> look p (Map (set m k v)) = look p (Map m)).
Proof.
  intros G Gv. split; [|split].
  - apply go_map. apply set_nodup, go_top, G. intros j u H. destruct (String.eqb_spec j k) as [->|].
    + rewrite get_set_eq in H. now injection H as <-.
    + rewrite get_set_ne in H by auto. now apply (go_sub m j).
  - intros p. now rewrite look_key, get_set_eq.
  - intros p N. destruct p as [|[j|i] p]; auto. rewrite !look_key, get_set_ne; auto. intros ->. apply N. now exists p.
Qed.

Lemma look_top k m : look [Key k] (Map m) = Some LMap <-> exists m', get m k = Some (Map m').
Proof.
  rewrite look_key. destruct (get m k) as [[x|l|m']|]; cbn; split; try discriminate; eauto; intros (m0 & [=]).
Qed.

(** Removing the timestamp. *)
Lemma creation_tree obj : go_tree (Map obj) ->
  match remove_creation_timestamp obj with
  | Ok obj' => look [Key "metadata"] (Map obj) = Some LMap /\ go_tree (Map obj') /\
      forall p, (below [Key "metadata"; Key "creationTimestamp"] p -> look p (Map obj') = None) /\
                (~ below [Key "metadata"; Key "creationTimestamp"] p -> look p (Map obj') = look p (Map obj))
  | Err => False
  | Panic => look [Key "metadata"] (Map obj) <> Some LMap
  end.
Proof.
  intros G. unfold remove_creation_timestamp. destruct (get obj "metadata") as [[x|l|m]|] eqn:M;
    try (rewrite look_top; rewrite M; now intros (m' & [=])).
  assert (Gm := go_sub _ _ _ G M). destruct (del_tree m "creationTimestamp" Gm) as [Gd Ld].
  destruct (set_tree obj "metadata" _ G Gd) as (Gs & L1 & L2). split; [|split; auto].
  - apply look_top. eauto.
  - intros p. split.
    + intros (r & ->). cbn [app]. rewrite L1. apply Ld. now exists r.
    + intros N. destruct p as [|[k|i] p]; try (apply L2; intros (r & X); discriminate X).
      destruct (String.eqb_spec k "metadata") as [->|]; [|apply L2; intros (r & X); injection X; congruence].
      rewrite L1. rewrite (look_key "metadata" p obj), M. apply Ld. intros (r & ->). apply N. now exists r.
Qed.

Lemma preserve_tree value obj : go_tree (Map obj) ->
  exists obj', preserve_unknown_fields value obj = Ok obj' /\ go_tree (Map obj') /\
  (look [Key "spec"] (Map obj) = Some LMap -> look [Key "spec"; Key "preserveUnknownFields"] (Map obj') = Some (LScalar (Bool value))) /\
  (look [Key "spec"] (Map obj) <> Some LMap -> obj' = obj) /\
  (forall p, ~ below [Key "spec"; Key "preserveUnknownFields"] p -> look p (Map obj') = look p (Map obj)).
Proof.
  intros G. unfold preserve_unknown_fields. destruct (get obj "spec") as [[x|l|m]|] eqn:M;
    try (exists obj; split; [reflexivity|]; split; [exact G|]; split;
         [rewrite look_top; rewrite M; now intros (m' & [=])|]; split; auto).
  assert (Gm := go_sub _ _ _ G M).
  destruct (set_tree m "preserveUnknownFields" (Scalar (Bool value)) Gm (go_scalar _)) as (Gp & P1 & P2).
  destruct (set_tree obj "spec" _ G Gp) as (Gs & L1 & L2).
  eexists. split; [reflexivity|]. split; [exact Gs|]. split; [|split].
  - intros _. rewrite L1, P1. reflexivity.
  - intros N. destruct N. apply look_top. eauto.
  - intros p N. destruct p as [|[k|i] p]; try (apply L2; intros (r & X); discriminate X).
    destruct (String.eqb_spec k "spec") as [->|]; [|apply L2; intros (r & X); injection X; congruence].
    rewrite L1. rewrite (look_key "spec" p obj), M. apply P2. intros (r & ->). apply N. now exists r.
Qed.

(** ** Lines *)

Lemma lines_from_app s t : forall cur, lines_from cur (s ++ String newline t) = lines_from cur (s ++ String newline "") ++ lines t.
Proof.
  induction s as [|c s IH]; intros cur; cbn [lines_from append].
  - rewrite Ascii.eqb_refl. reflexivity.
  - destruct (Ascii.eqb c newline); [|apply IH]. cbn. now rewrite IH.
Qed.

Lemma lines_app s t : whole s -> lines (s ++ t) = lines s ++ lines t.
Proof.
  intros [->|(u & ->)]; [reflexivity|]. unfold lines. rewrite str_app_assoc. cbn [append]. apply lines_from_app.
Qed.

Lemma whole_app s t : whole s -> whole t -> whole (s ++ t).
Proof.
  intros A [->|(u & ->)]. now rewrite str_app_nil_r. right. exists (s ++ u)%string. now rewrite str_app_assoc.
Qed.

Lemma documents_none ls : ~ In "---" ls -> forall cur rest, documents_from cur (ls ++ rest) = documents_from (cur ++ ls) rest.
Proof.
  induction ls as [|l ls IH]; intros N cur rest; cbn [app]. now rewrite app_nil_r.
  cbn [documents_from]. destruct (String.eqb_spec l "---") as [->|]. now destruct N; left.
  rewrite IH. now rewrite <- app_assoc. intros H. apply N. now right.
Qed.

Notation doc y := ("---" ++ String newline y)%string.

Lemma documents_written header ys :
  whole header -> ~ In "---" (lines header) -> Forall (fun y => whole y /\ ~ In "---" (lines y)) ys ->
  documents (header ++ join "" (map (fun y => doc y) ys)) = lines header :: map lines ys.
Proof.
  intros W N F. unfold documents. rewrite lines_app by auto. rewrite documents_none by auto. cbn [app].
  clear W N. generalize (lines header) as cur.
  assert (J : forall ys, join "" (map (fun y => doc y) ys) = match ys with [] => "" | y :: r => (doc y ++ join "" (map (fun y => doc y) r))%string end).
  { intros [|y [|y' r]]; auto. cbn [map join]. now rewrite str_app_nil_r. }
  induction F as [|y ys [W N] F IH]; intros cur; rewrite J; [reflexivity|].
  assert (E : (doc y ++ join "" (map (fun y => doc y) ys))%string = (doc "" ++ (y ++ join "" (map (fun y => doc y) ys)))%string) by reflexivity.
  rewrite E, lines_app by (right; now exists "---"). rewrite (lines_app y) by auto. cbn [app map].
  change (lines (doc "")) with ["---"]. cbn [app documents_from]. rewrite String.eqb_refl.
  rewrite documents_none by auto. cbn [app]. now rewrite IH.
Qed.

(** ** Replacing *)

Lemma replace_spec old new : old <> "" -> forall fuel s, String.length s <= fuel -> replaced old new s (replace_fuel fuel old new s).
Proof.
  intros Hold. induction fuel as [|fuel IH]; intros s L.
  - destruct s; cbn in *; [|lia]. apply r_none. intros a b H. destruct a; [|discriminate]. destruct old; [congruence|discriminate].
  - destruct s as [|c s]; cbn [replace_fuel].
    { apply r_none. intros a b H. destruct a; [|discriminate]. destruct old; [congruence|discriminate]. }
    destruct (has_prefix old (String c s)) eqn:P.
    + apply has_prefix_spec in P. destruct P as [t P]. rewrite P, str_drop_app.
      apply (r_first old new "" t). intros; cbn; lia. apply IH.
      assert (X := f_equal String.length P). rewrite str_length_app in X. cbn in X, L. destruct old; [congruence|]. cbn in X. lia.
    + cbn in L. assert (R := IH s ltac:(lia)). assert (NP : forall b, String c s <> (old ++ b)%string).
      { intros b E. assert (X : has_prefix old (String c s) = true) by (apply has_prefix_spec; eauto). congruence. }
      revert R. generalize (replace_fuel fuel old new s) as t. intros t R. clear L P IH. destruct R as [s N|a b b' M R'].
      * apply r_none. intros [|c' a] b; cbn. apply NP. intros [= -> E]. now apply (N a b).
      * apply (r_first old new (String c a) b b'); auto.
        intros [|c' a1] b1 E. now destruct (NP b1). cbn in E. injection E as -> E. cbn. apply M in E. lia.
Qed.

Lemma replaced_unique old new s t : replaced old new s t -> forall u, replaced old new s u -> t = u.
Proof.
  induction 1 as [s N|a b b' M R IH]; intros u U.
  - inversion U as [s0 N' E1 E2|a b b' M R E1 E2]; subst; auto. now destruct (N a b).
  - remember (a ++ old ++ b)%string as s eqn:Es. destruct U as [s N|a1 b1 b1' M1 R1].
    + subst. now destruct (N a b).
    + assert (La : String.length a1 <= String.length a) by (apply (M1 a b); auto).
      assert (Lb : String.length a <= String.length a1) by (apply (M a1 b1); auto).
      assert (a1 = a /\ (old ++ b1)%string = (old ++ b)%string).
      { assert (L : String.length a = String.length a1) by lia. clear -Es L. revert a L Es. induction a1 as [|c a1 IH]; intros [|c' a] L E; try discriminate L; auto.
        cbn in E. injection E as -> E. injection L as L. destruct (IH a L E) as [-> ->]. auto. }
      destruct H as [-> H]. apply str_app_inv_head in H. subst b1. f_equal. f_equal. now apply IH.
Qed.

Lemma has_char_old c s : has_char c s = false <-> forall a b, s <> (a ++ String c b)%string.
Proof.
  induction s as [|x s IH]; cbn.
  - split; auto. intros _ [|y a] b; discriminate.
  - rewrite orb_false_iff, IH. split.
    + intros [A B] [|y a] b; cbn; intros [= -> E]. now rewrite Ascii.eqb_refl in A. now apply (B a b).
    + intros H. split. destruct (Ascii.eqb_spec x c) as [->|]; auto. now destruct (H "" s).
      intros a b E. apply (H (String x a) b). cbn. now rewrite E.
Qed.

(** A text is a first line and the rest, or one line without an end. *)
Lemma line_cases s : has_char newline s = false \/ exists a b, s = (a ++ String newline b)%string /\ has_char newline a = false.
Proof.
  induction s as [|c s IH]; auto. destruct (Ascii.eqb_spec c newline) as [->|N].
  - right. now exists "", s.
  - destruct IH as [IH|(a & b & -> & A)].
    + left. cbn [has_char]. apply Ascii.eqb_neq in N. now rewrite N, IH.
    + right. exists (String c a), b. cbn [has_char append]. apply Ascii.eqb_neq in N. now rewrite N, A.
Qed.

Lemma lines_one a : has_char newline a = false -> a <> "" -> lines a = [a].
Proof.
  unfold lines. assert (X : forall a cur, has_char newline a = false -> lines_from cur a = if String.eqb (cur ++ a) "" then [] else [(cur ++ a)%string]).
  { clear. induction a as [|c a IH]; intros cur; cbn. now rewrite str_app_nil_r. rewrite orb_false_iff. intros [A B]. rewrite A, IH by auto.
    now rewrite str_app_assoc. }
  intros A N. rewrite X by auto. cbn. destruct (String.eqb_spec a ""); [contradiction|easy].
Qed.

Lemma lines_first a b : has_char newline a = false -> lines (a ++ String newline b) = a :: lines b.
Proof.
  unfold lines. assert (X : forall a cur, has_char newline a = false -> lines_from cur (a ++ String newline b) = (cur ++ a)%string :: lines_from "" b).
  { clear. induction a as [|c a IH]; intros cur; cbn [append lines_from has_char].
    - rewrite Ascii.eqb_refl. now rewrite str_app_nil_r.
    - rewrite orb_false_iff. intros [A B]. rewrite A, IH by auto. now rewrite str_app_assoc. }
  intros A. now rewrite X.
Qed.

(** Replacing acts line by line. *)
Lemma prefix_line old a b : has_char newline old = false -> has_prefix old (a ++ String newline b) = has_prefix old a.
Proof.
  revert a. induction old as [|c old IH]; intros a H; [now destruct a|]. cbn [has_char] in H. apply orb_false_iff in H. destruct H as [H H'].
  destruct a as [|x a]; cbn [append has_prefix].
  - now rewrite H.
  - now rewrite IH.
Qed.

Lemma replace_fuel_enough old new : old <> "" -> forall fuel s, String.length s <= fuel -> replace_fuel fuel old new s = replace_all old new s.
Proof.
  intros H fuel s L. apply (replaced_unique old new s). now apply replace_spec. now apply replace_spec.
Qed.

Lemma replace_cons old new c s : old <> "" -> replace_all old new (String c s) =
  if has_prefix old (String c s) then (new ++ replace_all old new (str_drop (String.length old) (String c s)))%string
  else String c (replace_all old new s).
Proof.
  intros H. unfold replace_all at 1. cbn [String.length replace_fuel]. destruct (has_prefix old (String c s)) eqn:P.
  - f_equal. apply replace_fuel_enough; auto. apply has_prefix_spec in P. destruct P as [t P]. rewrite P, str_drop_app.
    assert (X := f_equal String.length P). rewrite str_length_app in X. cbn in X. destruct old; [congruence|]. cbn in X. lia.
  - f_equal. 
Qed.

Lemma replace_line old new a b : old <> "" -> has_char newline old = false ->
  replace_all old new (a ++ String newline b) = (replace_all old new a ++ String newline (replace_all old new b))%string.
Proof.
  intros Ho Hn. remember (String.length a) as n eqn:En. revert a En. induction n as [n IH] using lt_wf_ind. intros a ->.
  destruct a as [|c a].
  - cbn [append]. rewrite replace_cons by auto. assert (P : has_prefix old (String newline b) = false).
    { destruct old as [|x old]; [congruence|]. cbn in *. apply orb_false_iff in Hn. destruct Hn as [Hn _]. now rewrite Hn. }
    now rewrite P.
  - cbn [append]. rewrite !replace_cons by auto.
    change (String c (a ++ String newline b)) with (String c a ++ String newline b)%string. rewrite prefix_line by auto.
    destruct (has_prefix old (String c a)) eqn:P.
    + apply has_prefix_spec in P. destruct P as [t P]. rewrite P, str_drop_app, str_app_assoc, str_drop_app.
      rewrite (IH (String.length t)); auto. now rewrite str_app_assoc.
      assert (X := f_equal String.length P). rewrite str_length_app in X. cbn in X. cbn. destruct old; [congruence|]. cbn in X. lia.
    + rewrite (IH (String.length a)); auto.
Qed.

Lemma replace_nonempty old new s : old <> "" -> new <> "" -> s <> "" -> replace_all old new s <> "".
Proof.
  intros A B C. destruct s as [|c s]; [congruence|]. rewrite replace_cons by auto. destruct (has_prefix old (String c s)); [|discriminate].
  destruct new; [congruence|discriminate].
Qed.

Lemma replace_nochar old new s c : old <> "" -> has_char c new = false -> has_char c s = false -> has_char c (replace_all old new s) = false.
Proof.
  intros A B. remember (String.length s) as n eqn:En. revert s En. induction n as [n IH] using lt_wf_ind. intros s -> H.
  destruct s as [|x s]; auto. rewrite replace_cons by auto. destruct (has_prefix old (String x s)) eqn:P.
  - apply has_prefix_spec in P. destruct P as [t P]. rewrite P, str_drop_app, has_char_app, B. cbn.
    apply (IH (String.length t)); auto.
    + assert (X := f_equal String.length P). rewrite str_length_app in X. cbn in X. cbn. destruct old; [congruence|]. cbn in X. lia.
    + rewrite P, has_char_app in H. now apply orb_false_iff in H.
  - cbn in *. apply orb_false_iff in H. destruct H as [-> H]. cbn. apply (IH (String.length s)); auto.
Qed.

Lemma replace_lines old new s : old <> "" -> new <> "" -> has_char newline old = false -> has_char newline new = false ->
  lines (replace_all old new s) = map (replace_all old new) (lines s) /\ (whole s -> whole (replace_all old new s)).
Proof.
  intros A B C D. remember (String.length s) as n eqn:En. revert s En. induction n as [n IH] using lt_wf_ind. intros s ->.
  destruct (line_cases s) as [L|(a & b & -> & L)].
  - split.
    + destruct (String.eqb_spec s "") as [->|N]; [reflexivity|]. rewrite (lines_one s L N). cbn.
      apply lines_one. now apply replace_nochar. now apply replace_nonempty.
    + intros [->|(t & ->)]; [now left|]. apply has_char_old with (a := t) (b := "") in L. now destruct L.
  - rewrite replace_line by auto. destruct (IH (String.length b)) with (s := b) as [I1 I2]; auto.
    { rewrite str_length_app. cbn. lia. }
    split.
    + rewrite lines_first by now apply replace_nochar. rewrite I1, lines_first by auto. reflexivity.
    + intros W. assert (Wb : whole b).
      { destruct W as [W|(t & W)]; [destruct a; discriminate|]. clear -W. revert t W. induction a as [|c a IH]; intros t W; cbn in W.
        - destruct t as [|x t]; cbn in W; injection W; intros; subst; [now left|]. right. now exists t.
        - destruct t as [|x t]; cbn in W; injection W; intros E2 E1; [destruct a; discriminate|]. now apply (IH t). }
      assert (X : (replace_all old new a ++ String newline (replace_all old new b))%string = ((replace_all old new a ++ String newline "") ++ replace_all old new b)%string)
        by now rewrite str_app_assoc.
      rewrite X. apply whole_app; auto. right. eauto.
Qed.
