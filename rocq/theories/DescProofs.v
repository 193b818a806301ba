From Coq Require Import List String Ascii Bool NArith ZArith Lia.
From Verif Require Import GoLib GoLibFacts SchemaModel SchemaFacts WalkModel WalkProofs DescModel DescSpec.
Import ListNotations.
Open Scope string_scope.
Open Scope nat_scope.

Lemma decode_rune_size s : s <> "" -> 1 <= snd (decode_rune s) <= String.length s.
Proof.
  intros H. destruct s as [|a s]; [congruence|]. unfold decode_rune.
  destruct (code a <? 128)%N; [simpl; lia|].
  destruct (in_range 194 223 (code a)).
  { destruct s as [|b s]; [simpl; lia|]. destruct (in_range 128 191 (code b)); simpl; lia. }
  destruct (in_range 224 239 (code a)).
  { destruct s as [|b [|c s]]; try (simpl; lia).
    match goal with |- context [if ?b then _ else _] => destruct b end; simpl; lia. }
  destruct (in_range 240 244 (code a)); [|simpl; lia].
  destruct s as [|b [|c [|d s]]]; try (simpl; lia).
  match goal with |- context [if ?b then _ else _] => destruct b end; simpl; lia.
Qed.

Lemma find_start_le s start fuel : find_start s start fuel <= start.
Proof.
  revert start; induction fuel as [|fuel IH]; intros start; simpl; [lia|]. destruct start as [|p]; [apply Nat.le_refl|].
  destruct (rune_start (str_nth p s)); [lia|]. specialize (IH p). lia.
Qed.

Lemma str_drop_length n s : String.length (str_drop n s) = String.length s - n.
Proof. revert s; induction n as [|n IH]; intros [|a s]; simpl; auto. Qed.

Lemma decode_last_size s : s <> "" -> 1 <= snd (decode_last s) <= String.length s.
Proof.
  intros H. unfold decode_last. destruct (String.length s) as [|m] eqn:E; [destruct s; [congruence|discriminate]|].
  destruct (code (str_nth m s) <? 128)%N; [simpl; lia|].
  destruct (decode_rune (str_drop (find_start s m 3) s)) as [r size] eqn:Ed.
  destruct (Nat.eqb_spec (find_start s m 3 + size) (S m)); simpl; [|lia].
  pose proof (find_start_le s m 3).
  pose proof (decode_rune_size (str_drop (find_start s m 3) s)) as Hd. rewrite Ed, str_drop_length, E in Hd. cbn [snd] in Hd.
  assert (Hne : str_drop (find_start s m 3) s <> "").
  { intros Es. apply (f_equal String.length) in Es. rewrite str_drop_length, E in Es. cbn [String.length] in Es. lia. }
  specialize (Hd Hne). lia.
Qed.

Lemma last_index_fuel_lt f : forall fuel s i, last_index_fuel fuel f s = Some i -> i < String.length s.
Proof.
  induction fuel as [|fuel IH]; intros s i; simpl; [discriminate|].
  destruct (String.length s) as [|m] eqn:E; [discriminate|].
  assert (Hs : s <> "") by (intros ->; discriminate).
  pose proof (decode_last_size s Hs) as Hd. destruct (decode_last s) as [r size]. simpl in Hd.
  destruct (f r).
  - intros [= <-]. simpl. destruct size; lia.
  - intros H. apply IH in H. rewrite str_take_length in H. lia.
Qed.
Lemma last_index_lt f s i : last_index_func f s = Some i -> i < String.length s.
Proof. apply last_index_fuel_lt. Qed.

Lemma str_take_prefix n s : has_prefix (str_take n s) s = true.
Proof. apply has_prefix_spec. exists (str_drop n s). symmetry. apply str_take_drop. Qed.
Lemma has_prefix_trans a b c : has_prefix a b = true -> has_prefix b c = true -> has_prefix a c = true.
Proof.
  rewrite !has_prefix_spec. intros [x ->] [y ->]. exists (x ++ y)%string. apply str_app_assoc.
Qed.
Lemma str_take_nonempty n s : 0 < n -> s <> "" -> str_take n s <> "".
Proof. intros Hn Hs. destruct n; [lia|]. destruct s; [congruence|]. simpl. discriminate. Qed.

Section Trunc.
  Variable is_sterm is_space : N -> bool.

  Lemma truncate_string_spec n d : 0 < n -> truncated n d (truncate_string is_sterm is_space d n).
  Proof.
    intros Hn. unfold truncated, truncate_string. destruct (Nat.leb_spec (String.length d) n) as [Hle|Hgt].
    - split; [auto|lia].
    - split; [lia|]. intros _.
      assert (Hlen : String.length (str_take n d) = n) by (rewrite str_take_length; lia).
      assert (Hd : d <> "") by (intros ->; simpl in Hgt; lia).
      assert (Hne : str_take n d <> "") by (apply str_take_nonempty; assumption).
      assert (Hsub : forall m, 0 < m -> m <= n -> let p := str_take m (str_take n d) in
        p <> "" /\ has_prefix p d = true /\ String.length p <= n).
      { intros m Hm Hmn p. split; [apply str_take_nonempty; assumption|]. split.
        - eapply has_prefix_trans; apply str_take_prefix.
        - unfold p. rewrite str_take_length. lia. }
      destruct (last_index_func is_sterm (str_take n d)) as [[|i]|] eqn:E1.
      2:{ apply last_index_lt in E1. rewrite Hlen in E1. exists (str_take (S i + 1) (str_take n d)).
          destruct (Hsub (S i + 1)) as (A & B & C); [lia|lia|]. auto. }
      all: (destruct (last_index_func is_space (str_take n d)) as [[|j]|] eqn:E2;
        [ exists (str_take n (str_take n d)); destruct (Hsub n) as (A & B & C); [lia|lia|]; auto
        | apply last_index_lt in E2; rewrite Hlen in E2; exists (str_take (S j) (str_take n d));
          destruct (Hsub (S j)) as (A & B & C); [lia|lia|]; auto
        | exists (str_take n (str_take n d)); destruct (Hsub n) as (A & B & C); [lia|lia|]; auto ]).
  Qed.

  (** The keyword edit done at a node for a non-negative limit. *)
  Definition desc_edit (maxLen : Z) (k : kw) : kw :=
    set_k_desc k (if (maxLen =? 0)%Z then "" else
                  if (maxLen <? Z.of_nat (String.length (k_desc k)))%Z then truncate_string is_sterm is_space (k_desc k) (Z.to_nat maxLen)
                  else k_desc k).

  Lemma with_kw_id s : with_kw s (s_kw s) = s.
  Proof. destruct s; reflexivity. Qed.
  Lemma set_k_desc_id k : set_k_desc k (k_desc k) = k.
  Proof. destruct k; reflexivity. Qed.

  Lemma desc_visit_edit maxLen s : (0 <= maxLen)%Z ->
    desc_visit is_sterm is_space maxLen s = (with_kw s (desc_edit maxLen (s_kw s)), Some tt).
  Proof.
    intros H. unfold desc_visit, desc_edit. destruct (Z.ltb_spec maxLen 0); [lia|].
    destruct (maxLen =? 0)%Z; [reflexivity|]. destruct (maxLen <? Z.of_nat (String.length (k_desc (s_kw s))))%Z; [reflexivity|].
    rewrite set_k_desc_id, with_kw_id. reflexivity.
  Qed.

  Lemma truncate_description_eq ord s fuel maxLen : is_order ord -> schema_wf s -> ssize s <= fuel -> (0 <= maxLen)%Z ->
    truncate_description is_sterm is_space ord fuel maxLen s = Some (map_kw (desc_edit maxLen) s).
  Proof.
    intros Ho Hwf Hf Hm. unfold truncate_description.
    rewrite (walk_edit (desc_edit maxLen)); try assumption; try reflexivity.
    intros s'. rewrite desc_visit_edit by exact Hm. reflexivity.
  Qed.

  Lemma truncate_description_neg ord s fuel maxLen : 0 < fuel -> (maxLen < 0)%Z ->
    truncate_description is_sterm is_space ord fuel maxLen s = Some s.
  Proof.
    intros Hf Hm. unfold truncate_description. destruct fuel; [lia|]. cbn [walk open_loop]. unfold desc_visit.
    destruct (Z.ltb_spec maxLen 0); [reflexivity|lia].
  Qed.

  Lemma truncate_description_zero ord s fuel : is_order ord -> schema_wf s -> ssize s <= fuel ->
    exists s', truncate_description is_sterm is_space ord fuel 0 s = Some s' /\
      only_descriptions_change (fun _ d' => d' = "") s s' /\ (forall x, In x (subschemas s') -> k_desc (s_kw x) = "").
  Proof.
    intros Ho Hwf Hf. rewrite truncate_description_eq by (auto; lia). eexists. split; [reflexivity|]. split.
    - exists (desc_edit 0). split; [|reflexivity]. intros k. exists "". split; reflexivity.
    - intros x Hx. rewrite map_kw_subschemas in Hx. apply in_map_iff in Hx. destruct Hx as (y & <- & _).
      rewrite map_kw_kw. reflexivity.
  Qed.

  Lemma truncate_description_pos ord s fuel n : is_order ord -> schema_wf s -> ssize s <= fuel -> 0 < n ->
    exists s', truncate_description is_sterm is_space ord fuel (Z.of_nat n) s = Some s' /\
      only_descriptions_change (truncated n) s s'.
  Proof.
    intros Ho Hwf Hf Hn. rewrite truncate_description_eq by (auto; lia). eexists. split; [reflexivity|].
    exists (desc_edit (Z.of_nat n)). split; [|reflexivity]. intros k. unfold desc_edit.
    destruct (Z.eqb_spec (Z.of_nat n) 0); [lia|]. eexists. split; [reflexivity|]. rewrite Nat2Z.id.
    destruct (Z.ltb_spec (Z.of_nat n) (Z.of_nat (String.length (k_desc k)))).
    - apply truncate_string_spec. exact Hn.
    - split; [reflexivity|lia].
  Qed.

  (** ASCII descriptions *)
  Lemma str_nth_in m s : m < String.length s -> In (str_nth m s) (list_ascii_of_string s).
  Proof. revert m; induction s as [|a s IH]; intros m H; simpl in *; [lia|]. destruct m; [left; reflexivity|right; apply IH; lia]. Qed.
  Lemma holds_at_nth f s i : holds_at f s i <-> i < String.length s /\ f (code (str_nth i s)) = true.
  Proof.
    revert i; induction s as [|a s IH]; intros i; simpl; [split; [tauto|lia]|]. destruct i; simpl; [split; [intros; split; [lia|assumption]|tauto]|].
    rewrite IH. split; intros [H1 H2]; split; auto; lia.
  Qed.
  Lemma str_nth_take k i s : i < k -> str_nth i (str_take k s) = str_nth i s.
  Proof. revert i s; induction k as [|k IH]; intros i s H; [lia|]. destruct s as [|a s]; [reflexivity|]. destruct i; simpl; [reflexivity|]. apply IH. lia. Qed.
  Lemma all_ascii_take k s : all_ascii s -> all_ascii (str_take k s).
  Proof.
    unfold all_ascii. revert s; induction k as [|k IH]; intros s H a; simpl; [tauto|]. destruct s as [|b s]; simpl; [tauto|].
    intros [<-|Hin]; [apply H; left; reflexivity|]. apply (IH s); [|exact Hin]. intros x Hx. apply H. right; exact Hx.
  Qed.
  Lemma decode_last_ascii s m : all_ascii s -> String.length s = S m -> decode_last s = (code (str_nth m s), 1).
  Proof.
    intros Ha E. unfold decode_last. rewrite E. assert (H : (code (str_nth m s) < 128)%N) by (apply Ha, str_nth_in; lia).
    apply N.ltb_lt in H. rewrite H. reflexivity.
  Qed.

  Lemma last_index_ascii f : forall fuel s, all_ascii s -> String.length s < fuel ->
    match last_index_fuel fuel f s with
    | Some i => holds_at f s i /\ forall j, i < j -> ~ holds_at f s j
    | None => forall j, ~ holds_at f s j
    end.
  Proof.
    induction fuel as [|fuel IH]; intros s Ha Hl; [lia|]. cbn [last_index_fuel].
    destruct (String.length s) as [|m] eqn:E.
    - intros j. rewrite holds_at_nth. lia.
    - rewrite (decode_last_ascii s m Ha E). replace (S m - 1) with m by lia.
      destruct (f (code (str_nth m s))) eqn:Ef.
      + rewrite holds_at_nth. split; [split; [lia|exact Ef]|]. intros j Hj. rewrite holds_at_nth. lia.
      + specialize (IH (str_take m s) (all_ascii_take m s Ha)).
        assert (Hlt : String.length (str_take m s) = m) by (rewrite str_take_length; lia).
        rewrite Hlt in IH. specialize (IH ltac:(lia)).
        assert (Hequiv : forall j, holds_at f s j <-> holds_at f (str_take m s) j).
        { intros j. rewrite !holds_at_nth, Hlt. split; intros [H1 H2].
          - destruct (Nat.eq_dec j m); [subst; congruence|]. split; [lia|]. rewrite str_nth_take by lia. exact H2.
          - split; [lia|]. rewrite str_nth_take in H2 by lia. exact H2. }
        destruct (last_index_fuel fuel f (str_take m s)) as [i|].
        * destruct IH as [H1 H2]. split; [apply Hequiv; exact H1|]. intros j Hj. rewrite Hequiv. apply H2. exact Hj.
        * intros j. rewrite Hequiv. apply IH.
  Qed.

  Lemma take_take i n s : i <= n -> str_take i (str_take n s) = str_take i s.
  Proof. revert n s; induction i as [|i IH]; intros n s H; [reflexivity|]. destruct n; [lia|]. destruct s; [reflexivity|]. simpl. rewrite IH by lia. reflexivity. Qed.

  (** The sought position of the prefix of length n, in terms of the whole description. *)
  Lemma inside_cases f d n : all_ascii d -> n < String.length d ->
    match last_index_func f (str_take n d) with
    | Some (S i) => last_inside f d n (S i)
    | _ => none_inside f d n
    end.
  Proof.
    intros Ha Hn. pose proof (last_index_ascii f (S (String.length (str_take n d))) (str_take n d) (all_ascii_take n d Ha) ltac:(lia)) as H.
    fold (last_index_func f (str_take n d)) in H.
    assert (Hlt : String.length (str_take n d) = n) by (rewrite str_take_length; lia).
    assert (Hequiv : forall j, j < n -> holds_at f d j <-> holds_at f (str_take n d) j).
    { intros j Hj. rewrite !holds_at_nth, Hlt. rewrite str_nth_take by exact Hj. split; intros [H1 H2]; split; auto; lia. }
    destruct (last_index_func f (str_take n d)) as [[|i]|] eqn:E.
    - intros j Hj. rewrite Hequiv by lia. apply H. lia.
    - destruct H as [H1 H2]. pose proof E as E'. apply last_index_lt in E'. rewrite Hlt in E'. split; [lia|]. split.
      + rewrite Hequiv by lia. exact H1.
      + intros j Hj. rewrite Hequiv by lia. apply H2. lia.
    - intros j Hj. rewrite Hequiv by lia. apply H.
  Qed.

  Lemma last_inside_unique f d n i j : last_inside f d n i -> last_inside f d n j -> i = j.
  Proof.
    intros (A & B & C) (A' & B' & C'). destruct (Nat.lt_trichotomy i j) as [H|[H|H]]; [|exact H|].
    - exfalso. apply (C j); [lia|exact B'].
    - exfalso. apply (C' i); [lia|exact B].
  Qed.

  Lemma truncate_ascii_sentence d n i : all_ascii d -> n < String.length d -> last_inside is_sterm d n i ->
    truncate_string is_sterm is_space d n = str_take (i + 1) d.
  Proof.
    intros Ha Hn Hi. unfold truncate_string. destruct (Nat.leb_spec (String.length d) n); [lia|].
    pose proof (inside_cases is_sterm d n Ha Hn) as H1.
    destruct (last_index_func is_sterm (str_take n d)) as [[|k]|].
    - exfalso. destruct Hi as (A & B & _). apply (H1 i); assumption.
    - rewrite (last_inside_unique _ _ _ _ _ Hi H1). apply take_take. destruct H1 as (A & _). lia.
    - exfalso. destruct Hi as (A & B & _). apply (H1 i); assumption.
  Qed.

  Lemma truncate_ascii_word d n i : all_ascii d -> n < String.length d -> none_inside is_sterm d n -> last_inside is_space d n i ->
    truncate_string is_sterm is_space d n = (str_take i d ++ "...")%string.
  Proof.
    intros Ha Hn Hno Hi. unfold truncate_string. destruct (Nat.leb_spec (String.length d) n); [lia|].
    pose proof (inside_cases is_sterm d n Ha Hn) as H1. pose proof (inside_cases is_space d n Ha Hn) as H2.
    destruct (last_index_func is_sterm (str_take n d)) as [[|k]|];
      try (exfalso; destruct H1 as (A & B & _); apply (Hno (S k)); assumption);
      (destruct (last_index_func is_space (str_take n d)) as [[|k']|];
       [ exfalso; destruct Hi as (A & B & _); apply (H2 i); assumption
       | rewrite (last_inside_unique _ _ _ _ _ Hi H2); rewrite take_take; [reflexivity|destruct H2 as (A & _); lia]
       | exfalso; destruct Hi as (A & B & _); apply (H2 i); assumption ]).
  Qed.

  Lemma truncate_ascii_hard d n : all_ascii d -> n < String.length d -> none_inside is_sterm d n -> none_inside is_space d n ->
    truncate_string is_sterm is_space d n = (str_take n d ++ "...")%string.
  Proof.
    intros Ha Hn Hno Hno2. unfold truncate_string. destruct (Nat.leb_spec (String.length d) n); [lia|].
    pose proof (inside_cases is_sterm d n Ha Hn) as H1. pose proof (inside_cases is_space d n Ha Hn) as H2.
    destruct (last_index_func is_sterm (str_take n d)) as [[|k]|];
      try (exfalso; destruct H1 as (A & B & _); apply (Hno (S k)); assumption);
      (destruct (last_index_func is_space (str_take n d)) as [[|k']|];
       [ rewrite take_take by lia; reflexivity
       | exfalso; destruct H2 as (A & B & _); apply (Hno2 (S k')); assumption
       | rewrite take_take by lia; reflexivity ]).
  Qed.
End Trunc.
