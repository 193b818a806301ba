(** * C06: maxDescLen. *)

From Coq Require Import List String Ascii Bool NArith ZArith Lia.
From Verif Require Import GoLib SchemaModel SchemaFacts WalkModel WalkProps DescModel DescSpec DescProofs RbacProps.
Import ListNotations.
Open Scope string_scope.
Open Scope nat_scope.

(** A negative limit changes nothing. *)
Theorem desc_negative_limit : forall is_sterm is_space ord s fuel maxLen, 0 < fuel -> (maxLen < 0)%Z ->
  truncate_description is_sterm is_space ord fuel maxLen s = Some s.
Proof. exact truncate_description_neg. Qed.
Print Assumptions desc_negative_limit.

(** Limit 0 empties every description and changes nothing else. *)
Theorem desc_zero_limit : forall is_sterm is_space ord s fuel, is_order ord -> schema_wf s -> ssize s <= fuel ->
  exists s', truncate_description is_sterm is_space ord fuel 0 s = Some s' /\
    only_descriptions_change (fun _ d' => d' = "") s s' /\ (forall x, In x (subschemas s') -> k_desc (s_kw x) = "").
Proof. exact truncate_description_zero. Qed.
Print Assumptions desc_zero_limit.

(** A positive limit keeps every description that fits and cuts the others to a non-empty prefix of at most [n] bytes,
    perhaps followed by "..."; nothing else changes. *)
Theorem desc_positive_limit : forall is_sterm is_space ord s fuel n, is_order ord -> schema_wf s -> ssize s <= fuel -> 0 < n ->
  exists s', truncate_description is_sterm is_space ord fuel (Z.of_nat n) s = Some s' /\ only_descriptions_change (truncated n) s s'.
Proof. exact truncate_description_pos. Qed.
Print Assumptions desc_positive_limit.

(** Where an ASCII description is cut: after the last sentence terminator strictly inside the limit; without one, at the
    last white space; without one, at the limit. *)
Theorem desc_cut_at_sentence : forall is_sterm is_space d n i, all_ascii d -> n < String.length d ->
  last_inside is_sterm d n i -> truncate_string is_sterm is_space d n = str_take (i + 1) d.
Proof. exact truncate_ascii_sentence. Qed.
Print Assumptions desc_cut_at_sentence.
Theorem desc_cut_at_word : forall is_sterm is_space d n i, all_ascii d -> n < String.length d ->
  none_inside is_sterm d n -> last_inside is_space d n i -> truncate_string is_sterm is_space d n = (str_take i d ++ "...")%string.
Proof. exact truncate_ascii_word. Qed.
Print Assumptions desc_cut_at_word.
Theorem desc_cut_hard : forall is_sterm is_space d n, all_ascii d -> n < String.length d ->
  none_inside is_sterm d n -> none_inside is_space d n -> truncate_string is_sterm is_space d n = (str_take n d ++ "...")%string.
Proof. exact truncate_ascii_hard. Qed.
Print Assumptions desc_cut_hard.

(** Sample predicates: '.', '!', '?' and U+3002; space and tab. *)
Definition sterm0 (r : N) : bool := N.eqb r 46 || N.eqb r 33 || N.eqb r 63 || N.eqb r 12290.
Definition space0 (r : N) : bool := N.eqb r 32 || N.eqb r 9.

Example desc_cases :
  truncate_string sterm0 space0 "One sentence. Two more words" 20 = "One sentence." /\
  truncate_string sterm0 space0 "One sentence with many words" 20 = "One sentence with..." /\
  truncate_string sterm0 space0 "Onesentencewithoutspaces" 10 = "Onesentenc...".
Proof. vm_compute. auto. Qed.
Example desc_inside_case : last_inside sterm0 "One. Two. Three" 12 8 /\ all_ascii "One. Two. Three" /\ none_inside sterm0 "One two three" 12 /\ last_inside space0 "One two three" 12 7.
Proof.
  split; [|split; [|split]].
  - split; [lia|]. split; [reflexivity|]. intros j Hj. do 12 (destruct j as [|j]; [try lia; intros X; vm_compute in X; discriminate X|]); lia.
  - intros a Ha. cbn in Ha. repeat (destruct Ha as [<-|Ha]; [reflexivity|]). destruct Ha.
  - intros j Hj. do 12 (destruct j as [|j]; [try lia; intros X; vm_compute in X; discriminate X|]); lia.
  - split; [lia|]. split; [reflexivity|]. intros j Hj. do 12 (destruct j as [|j]; [try lia; intros X; vm_compute in X; discriminate X|]); lia.
Qed.
Example desc_schema_case :
  option_map (fun s => k_desc (s_kw s)) (truncate_description sterm0 space0 (@rev string) 9 8%Z (leaf "Long. description")) = Some "Long.".
Proof. vm_compute. reflexivity. Qed.

(** The limit is not a bound on the result. *)
Theorem desc_within_limit_refuted :
  ~ (forall is_sterm is_space d n, 0 < n -> String.length (truncate_string is_sterm is_space d n) <= n).
Proof. intros H. specialize (H sterm0 space0 "abcdef" 3 ltac:(lia)). vm_compute in H. lia. Qed.
Print Assumptions desc_within_limit_refuted.

(** Truncating twice is not truncating once. *)
Theorem desc_idempotent_refuted :
  ~ (forall is_sterm is_space d n, 0 < n ->
      truncate_string is_sterm is_space (truncate_string is_sterm is_space d n) n = truncate_string is_sterm is_space d n).
Proof. intros H. specialize (H sterm0 space0 "aaaa bbbb" 5 ltac:(lia)). vm_compute in H. discriminate H. Qed.
Print Assumptions desc_idempotent_refuted.

(** A well-formed UTF-8 description may be cut inside a character: only the first byte of the terminator U+3002 is kept. *)
Definition u3002 : string := String "227" (String "128" (String "130" "")).
Theorem desc_utf8_refuted :
  ~ (forall is_sterm is_space d n, 0 < n -> utf8 d -> utf8 (truncate_string is_sterm is_space d n)).
Proof.
  intros H. specialize (H sterm0 space0 ("ab" ++ u3002 ++ "cdefgh")%string 8 ltac:(lia)).
  assert (U : utf8 ("ab" ++ u3002 ++ "cdefgh")%string).
  { cbn. apply u_1; [reflexivity|]. apply u_1; [reflexivity|]. apply u_3; try (split; discriminate); try discriminate.
    repeat (apply u_1; [reflexivity|]). apply u_nil. }
  specialize (H U). vm_compute in H.
  inversion H as [|? ? _ H1|? ? ? Hx|? ? ? ? Hx|]; subst; try (cbn in Hx; lia).
  inversion H1 as [|? ? _ H2|? ? ? Hx|? ? ? ? Hx|]; subst; try (cbn in Hx; lia).
  inversion H2 as [|? ? Hx| | |]; subst; cbn in Hx; lia.
Qed.
Print Assumptions desc_utf8_refuted.
