(** * Proofs on description extraction. *)
From Coq Require Import List String Ascii Bool Arith Lia Sorting.Sorted.
From Verif Require Import GoLib GoLibFacts RegistryProofs DocModel DocSpec.
Import ListNotations.
Open Scope string_scope.
Open Scope list_scope.

(** ** Trimming *)
Lemma all_in_cons p a s : all_in p (String a s) <-> p a = true /\ all_in p s.
Proof.
  split.
  - intros H. split; [exact (H a "" s eq_refl)|]. intros b x y ->. exact (H b (String a x) y eq_refl).
  - intros [Ha Hs] b x y E. destruct x as [|c x]; simpl in E; injection E as <- E; [subst; exact Ha|]. exact (Hs b x y E).
Qed.
Lemma all_in_nil p : all_in p "".
Proof. intros a x y E. destruct x; discriminate. Qed.
Lemma all_in_chars p s : all_chars p s = true <-> all_in p s.
Proof. induction s as [|a s IH]; simpl; [split; [intros _; apply all_in_nil|reflexivity]|]. rewrite andb_true_iff, all_in_cons, IH. reflexivity. Qed.
Lemma all_in_app p s t : all_in p (s ++ t) <-> all_in p s /\ all_in p t.
Proof. induction s as [|a s IH]; simpl; [split; [intros H; split; [apply all_in_nil|exact H]|tauto]|]. rewrite !all_in_cons, IH. tauto. Qed.

Lemma trim_right_spec p s : exists w, s = (trim_right p s ++ w)%string /\ all_in p w /\ forall x a, trim_right p s = (x ++ String a "")%string -> p a = false.
Proof.
  induction s as [|a s (w & E & Hw & Hl)]; simpl; [exists ""; split; [reflexivity|]; split; [apply all_in_nil|intros [|? x] ? H; discriminate]|].
  destruct (trim_right p s) as [|b t] eqn:T.
  - destruct (p a) eqn:P.
    + exists (String a s). split; [reflexivity|]. split; [apply all_in_cons; split; [exact P|]; simpl in E; subst w; exact Hw|intros [|? x] ? H; discriminate].
    + exists s. split; [reflexivity|]. split; [simpl in E; subst w; exact Hw|]. intros [|c x] d H; simpl in H; [injection H as <-; exact P|]. injection H as _ H. destruct x; discriminate.
  - exists w. split; [simpl in *; rewrite <- E; reflexivity|]. split; [exact Hw|]. intros [|c x] d H; simpl in H; [discriminate|]. injection H as _ H. exact (Hl x d H).
Qed.
Lemma trim_right_unique p l w : all_in p w -> (forall x a, l = (x ++ String a "")%string -> p a = false) -> trim_right p (l ++ w) = l.
Proof.
  intros Hw Hl. assert (Ew : trim_right p w = "").
  { clear Hl. induction w as [|a w IH]; [reflexivity|]. apply all_in_cons in Hw as [Ha Hw]. simpl. rewrite (IH Hw), Ha. reflexivity. }
  induction l as [|a l IH]; [exact Ew|]. simpl. destruct l as [|b l].
  - simpl. rewrite Ew. rewrite (Hl "" a eq_refl). reflexivity.
  - rewrite IH; [reflexivity|]. intros x c E. apply (Hl (String a x) c). rewrite E. reflexivity.
Qed.
Lemma stripped_trim b : stripped b (trim_right is_white b).
Proof. apply trim_right_spec. Qed.
Lemma stripped_iff b l : stripped b l <-> trim_right is_white b = l.
Proof. split; [|intros <-; apply stripped_trim]. intros (w & -> & Hw & Hl). apply trim_right_unique; assumption. Qed.
Lemma trim_left_spec p s : exists w, s = (w ++ trim_left p s)%string /\ all_in p w /\ forall a t, trim_left p s = String a t -> p a = false.
Proof.
  induction s as [|a s (w & E & Hw & Hl)]; simpl; [exists ""; split; [reflexivity|]; split; [apply all_in_nil|discriminate]|]. destruct (p a) eqn:P.
  - exists (String a w). split; [simpl; f_equal; exact E|]. split; [apply all_in_cons; auto|exact Hl].
  - exists "". split; [reflexivity|]. split; [apply all_in_nil|]. intros b t [= <- <-]. exact P.
Qed.
Lemma trim_left_unique p w s : all_in p w -> (forall a t, s = String a t -> p a = false) -> trim_left p (w ++ s) = s.
Proof.
  intros Hw Hs. induction w as [|a w IH]; simpl; [destruct s as [|b s]; [reflexivity|]; simpl; rewrite (Hs b s eq_refl); reflexivity|]. apply all_in_cons in Hw as [Ha Hw]. rewrite Ha. auto.
Qed.
Lemma trim_right_head p a s : p a = false -> exists t, trim_right p (String a s) = String a t.
Proof. intros H. simpl. destruct (trim_right p s) as [|b t]; [rewrite H; exists ""; reflexivity|exists (String b t); reflexivity]. Qed.

(** ** Markers *)
Lemma marker_body b : match trim_space b with String a _ => Ascii.eqb a "+" | EmptyString => false end = true <-> marker_line b.
Proof.
  unfold trim_space. split.
  - destruct (trim_left_spec is_space b) as (w & E & Hw & Hl). destruct (trim_left is_space b) as [|a t]; [discriminate|]. destruct (trim_right_head is_space a t (Hl a t eq_refl)) as [t' ->]. intros H. apply Ascii.eqb_eq in H. subst a. exists w, t. auto.
  - intros (w & t & -> & Hw). rewrite trim_left_unique; [|exact Hw|intros a s [= <- _]; reflexivity]. destruct (trim_right_head is_space "+" t eq_refl) as [t' E]. change ("+" ++ t)%string with (String "+" t). rewrite E. reflexivity.
Qed.
Lemma marker_iff c : is_marker_comment c = true <-> marker c.
Proof.
  unfold is_marker_comment, marker. rewrite andb_true_iff. split.
  - intros [H1 H2]. apply has_prefix_spec in H1 as [b ->]. exists b. split; [reflexivity|]. apply marker_body. exact H2.
  - intros (b & -> & H). split; [apply has_prefix_app|]. apply marker_body in H. exact H.
Qed.

(** ** Directives *)
Lemma index_char s : match str_index s ":" with
  | None => has_char ":" s = false
  | Some i => exists w t, s = (w ++ String ":" t)%string /\ String.length w = i /\ has_char ":" w = false
  end.
Proof.
  induction s as [|a s IH]; [reflexivity|]. cbn [str_index]. destruct (has_prefix ":" (String a s)) eqn:E.
  - apply has_prefix_spec in E as [t E]. injection E as -> ->. exists "", t. auto.
  - assert (Ha : Ascii.eqb a ":" = false) by (destruct (Ascii.eqb_spec a ":") as [->|]; [destruct s; discriminate|reflexivity]).
    destruct (str_index s ":") as [i|].
    + destruct IH as (w & t & -> & L & H). exists (String a w), t. simpl. rewrite H, orb_false_r. auto.
    + simpl. rewrite IH, Ha. reflexivity.
Qed.
Lemma lower_no_colon w : all_in lower_or_digit w -> has_char ":" w = false.
Proof. intros H. induction w as [|a w IH]; [reflexivity|]. apply all_in_cons in H as [Ha Hw]. simpl. rewrite (IH Hw), orb_false_r. destruct (Ascii.eqb_spec a ":") as [->|]; [discriminate|reflexivity]. Qed.
Lemma directive_iff b : is_directive b = true <-> directive b.
Proof.
  unfold is_directive, directive. rewrite !orb_true_iff, !has_prefix_spec. split.
  - intros [[[[t ->]|[t ->]]|[t ->]]|H]; [left; exists t; auto|left; exists t; auto|left; exists t; auto|]. right. pose proof (index_char b) as I. destruct (str_index b ":") as [i|]; [|discriminate]. destruct I as (w & t & -> & L & Hw).
    apply andb_true_iff in H as [H H3]. apply andb_true_iff in H as [H1 H2]. subst i. rewrite str_take_app in H2. apply all_in_chars in H2.
    replace (w ++ String ":" t)%string with ((w ++ String ":" "") ++ t)%string in H3 by (rewrite str_app_assoc; reflexivity). replace (String.length w + 1) with (String.length (w ++ String ":" "")%string) in H3 by (rewrite str_length_app; reflexivity). rewrite str_drop_app in H3.
    destruct t as [|x t]; [discriminate|]. exists w, x, t. split; [reflexivity|]. split; [intros ->; discriminate|]. auto.
  - intros [[t [H|[H|H]]]|(w & x & t & -> & Hne & Hw & Hx)]; [left; left; left; exists t; exact H|left; left; right; exists t; exact H|left; right; exists t; exact H|]. right.
    change (":" ++ String x t)%string with (String ":" (String x t)).
    pose proof (index_char (w ++ String ":" (String x t))) as I. destruct (str_index (w ++ String ":" (String x t)) ":") as [i|].
    + destruct I as (w' & t' & E & L & Hw'). apply cut_at_char_unique in E as [<- <-]; [|apply lower_no_colon; exact Hw|exact Hw']. subst i. rewrite str_take_app. rewrite (proj2 (all_in_chars _ _) Hw).
      replace (Nat.ltb 0 (String.length w)) with true by (destruct w; [congruence|reflexivity]).
      replace (w ++ String ":" (String x t))%string with ((w ++ String ":" "") ++ String x t)%string by (rewrite str_app_assoc; reflexivity). replace (String.length w + 1) with (String.length (w ++ String ":" "")%string) by (rewrite str_length_app; reflexivity). rewrite str_drop_app. exact Hx.
    + rewrite has_char_app in I. simpl in I. rewrite orb_true_r in I. discriminate.
Qed.

(** ** The lines of a comment *)
Lemma split_char_no c s x : In x (split_char c s) -> has_char c x = false.
Proof.
  revert x. induction s as [|a s IH]; simpl; intros x H; [destruct H as [<-|[]]; reflexivity|]. destruct (Ascii.eqb a c) eqn:E; [destruct H as [<-|H]; auto|].
  destruct (split_char c s) as [|y l] eqn:F; [destruct H as [<-|[]]; simpl; rewrite E; reflexivity|]. destruct H as [<-|H]; [simpl; rewrite E; apply IH; left; reflexivity|apply IH; right; exact H].
Qed.
Lemma trim_right_no c p s : has_char c s = false -> has_char c (trim_right p s) = false.
Proof. intros H. destruct (trim_right_spec p s) as (w & E & _). rewrite E, has_char_app in H. apply orb_false_iff in H. tauto. Qed.
Lemma comment_lines_no c x : In x (comment_lines c) -> has_char nl x = false.
Proof.
  unfold comment_lines. match goal with |- In x (match ?tt0 with _ => _ end) -> _ => destruct tt0 as [b|]; [|intros []] end. intros H. apply in_map_iff in H as (y & <- & Hy). apply trim_right_no, (split_char_no _ _ _ Hy).
Qed.
Lemma text_exists c : comment c -> text_of c (comment_lines c).
Proof.
  intros [(b & -> & Hn)|(b & ->)]; unfold comment_lines.
  - change (has_prefix "/*" ("//" ++ b)) with false. cbv iota. change (str_drop 2 ("//" ++ b)) with (str_drop (String.length "//") ("//" ++ b)). rewrite str_drop_app. destruct b as [|a b].
    + cbv beta iota. simpl split_char. simpl map. apply text_plain; [reflexivity| |apply stripped_iff; reflexivity]. intros [[t [H|[H|H]]]|(w & x & t & H & Hne & _)]; try discriminate. destruct w; discriminate.
    + destruct (Ascii.eqb_spec a " ") as [->|E].
      * cbv beta iota. rewrite split_char_nosep by (simpl in Hn; exact Hn). simpl map. apply (text_space b), stripped_trim.
      * assert (Hs : has_prefix " " (String a b) = false) by (apply not_true_is_false; intros H; apply has_prefix_spec in H as [t H]; injection H as H _; contradiction).
        destruct (is_directive (String a b)) eqn:D; cbv beta iota.
        -- apply text_directive; [exact Hs|]. apply directive_iff, D.
        -- rewrite split_char_nosep by exact Hn. cbn [map]. apply text_plain; [exact Hs| |apply stripped_trim]. intros H. apply directive_iff in H. congruence.
  - rewrite has_prefix_app. cbv iota. change (str_drop 2 ("/*" ++ b ++ "*/")) with (str_drop (String.length "/*") ("/*" ++ (b ++ "*/"))). rewrite str_drop_app.
    replace (String.length ("/*" ++ b ++ "*/") - 4) with (String.length b) by (rewrite !str_length_app; simpl; lia). rewrite str_take_app. cbv beta iota.
    rewrite <- (split_char_join nl b) at 1. apply text_block; [apply split_char_nonempty|intros x Hx; exact (split_char_no _ _ _ Hx)|].
    induction (split_char nl b) as [|x l IH]; [constructor|]. cbn [map]. constructor; [apply stripped_trim|exact IH].
Qed.
Lemma join_split bs : bs <> [] -> (forall b, In b bs -> has_char nl b = false) -> split_char nl (join (String nl "") bs) = bs.
Proof. intros H1 H2. apply split_join_char; [exact H1|apply Forall_forall; exact H2]. Qed.
Lemma text_fun c ls ls' : text_of c ls -> text_of c ls' -> ls = ls'.
Proof.
  intros H H'. assert (K : forall ls, text_of c ls -> comment_lines c = ls \/ exists b, c = ("//" ++ b)%string /\ has_char nl b = true).
  { clear. intros ls H. destruct H as [b l S|b l Hs D S|b Hs D|bs ls Hne Hn F].
    - destruct (has_char nl b) eqn:N; [right; exists (String " " b); split; [reflexivity|exact N]|left]. unfold comment_lines. change (has_prefix "/*" ("// " ++ b)) with false. cbv iota. change (str_drop 2 ("// " ++ b)) with (String " " b). cbv beta iota. simpl. rewrite split_char_nosep by exact N. simpl. apply stripped_iff in S. rewrite S. reflexivity.
    - destruct (has_char nl b) eqn:N; [right; exists b; auto|left]. unfold comment_lines. change (has_prefix "/*" ("//" ++ b)) with false. cbv iota. change (str_drop 2 ("//" ++ b)) with (str_drop (String.length "//") ("//" ++ b)). rewrite str_drop_app. apply stripped_iff in S. destruct b as [|a b].
      + simpl. simpl in S. congruence.
      + destruct (Ascii.eqb_spec a " ") as [->|E]; [destruct b; discriminate|]. destruct (is_directive (String a b)) eqn:D'; [exfalso; apply D, directive_iff, D'|]. cbv beta iota. rewrite split_char_nosep by exact N. cbn [map]. rewrite S. reflexivity.
    - left. unfold comment_lines. change (has_prefix "/*" ("//" ++ b)) with false. cbv iota. change (str_drop 2 ("//" ++ b)) with (str_drop (String.length "//") ("//" ++ b)). rewrite str_drop_app. destruct b as [|a b].
      + exfalso. destruct D as [[t [H|[H|H]]]|(w & x & t & H & Hne & _)]; try discriminate. destruct w; discriminate.
      + destruct (Ascii.eqb_spec a " ") as [->|E]; [destruct b; discriminate|]. rewrite (proj2 (directive_iff _) D). reflexivity.
    - left. unfold comment_lines. rewrite has_prefix_app. cbv iota. set (b := join (String nl "") bs). change (str_drop 2 ("/*" ++ b ++ "*/")) with (str_drop (String.length "/*") ("/*" ++ (b ++ "*/"))). rewrite str_drop_app.
      replace (String.length ("/*" ++ b ++ "*/") - 4) with (String.length b) by (rewrite !str_length_app; simpl; lia). rewrite str_take_app. cbv beta iota. unfold b. rewrite (join_split bs Hne Hn). clear -F. induction F as [|x l bs ls S F IH]; [reflexivity|]. cbn [map]. apply stripped_iff in S. rewrite S, IH. reflexivity. }
  destruct (K ls H) as [E|(b & E & N)], (K ls' H') as [E'|(b' & E' & N')]; [congruence| | |].
  all: clear K; inversion H; inversion H'; subst; try discriminate; repeat match goal with E : (_ ++ _)%string = (_ ++ _)%string |- _ => simpl in E; injection E as ? end; subst; try discriminate; try contradiction; try reflexivity;
    repeat match goal with S : stripped _ _ |- _ => apply stripped_iff in S end; try congruence; try (match goal with Hs : has_prefix " " (String " " ?b) = false |- _ => destruct b; discriminate end).
Qed.

(** ** Blank lines *)
Fixpoint take_para (ls : list string) : list string := match ls with [] => [] | l :: r => if String.eqb l "" then [] else l :: take_para r end.
Fixpoint drop_para (ls : list string) : list string := match ls with [] => [] | l :: r => if String.eqb l "" then l :: r else drop_para r end.
Lemma para_split ls : ls = take_para ls ++ drop_para ls.
Proof. induction ls as [|l ls IH]; [reflexivity|]. simpl. destruct (String.eqb l ""); [reflexivity|]. simpl. f_equal. exact IH. Qed.
Lemma take_para_nonblank ls x : In x (take_para ls) -> x <> "".
Proof. induction ls as [|l ls IH]; [intros []|]. simpl. destruct (String.eqb_spec l "") as [E|E]; [intros []|]. intros [<-|H]; auto. Qed.
Lemma drop_para_head ls l r : drop_para ls = l :: r -> l = "".
Proof. induction ls as [|x ls IH]; [discriminate|]. simpl. destruct (String.eqb_spec x "") as [E|E]; [intros [= <- _]; exact E|exact IH]. Qed.
Lemma collapse_some p ls : p <> "" -> collapse (Some p) ls = take_para ls ++ match drop_para ls with [] => [] | _ :: r => "" :: collapse (Some "") r end.
Proof.
  revert p. induction ls as [|l ls IH]; intros p Hp; [reflexivity|]. cbn [collapse take_para drop_para]. destruct (String.eqb_spec l "") as [->|E]; cbn [negb orb].
  - destruct (String.eqb_spec p ""); [contradiction|reflexivity].
  - cbn [app]. f_equal. apply IH, E.
Qed.
Lemma collapse_blank ls : collapse (Some "") ls = collapse None ls.
Proof. induction ls as [|l ls IH]; [reflexivity|]. cbn [collapse]. destruct (String.eqb l ""); cbn; [exact IH|reflexivity]. Qed.
Lemma spaced_blank ls V : spaced ls V -> spaced ("" :: ls) V.
Proof. intros H. destruct H as [k|k p m P|k p raw V P N H]; [apply (spaced_end (S k))|apply (spaced_last (S k)), P|apply (spaced_more (S k)); assumption]. Qed.

(** Text after splitting and chopping *)
Lemma join_snoc_empty c l : l <> [] -> join (String c "") (l ++ [""]) = (join (String c "") l ++ String c "")%string.
Proof.
  induction l as [|x l IH]; [congruence|]. intros _. destruct l as [|y l]; [reflexivity|]. change ((x :: y :: l) ++ [""]) with (x :: (y :: l) ++ [""]).
  assert (E : forall m, m <> [] -> join (String c "") (x :: m) = (x ++ String c (join (String c "") m))%string) by (intros [|z m] Hm; [congruence|reflexivity]).
  rewrite E by discriminate. rewrite IH by discriminate. rewrite (E (y :: l)) by discriminate. rewrite str_app_assoc. reflexivity.
Qed.

(** The lines seen by the loop, before trimming. *)
Definition seen_lines (cs : list string) : list string :=
  let ls := split_char nl (group_text cs) in if String.eqb (last ls "") "" then removelast ls else ls.
Definition drop_last_blank (ls : list string) : list string := match ls with [] => [] | _ => if String.eqb (last ls "") "" then removelast ls else ls end.
Lemma seen_lines_eq cs : seen_lines cs = drop_last_blank (collapse None (flat_map comment_lines cs)).
Proof.
  unfold seen_lines, group_text, drop_last_blank.
  assert (N : forall x, In x (collapse None (flat_map comment_lines cs)) -> has_char nl x = false).
  { intros x. assert (M : forall ls prev, In x (collapse prev ls) -> In x ls).
    { induction ls as [|y ls IH]; intros prev; [auto|]. cbn [collapse]. destruct (negb _ || _); [intros [->|H]; [left; reflexivity|right; exact (IH _ H)]|intros H; right; exact (IH _ H)]. }
    intros H. apply M in H. apply in_flat_map in H as (c & _ & H). exact (comment_lines_no _ _ H). }
  generalize dependent (collapse None (flat_map comment_lines cs)). intros ls N. destruct (list_eq_dec string_dec ls []) as [E|Hne]; [rewrite E; reflexivity|].
  replace (match ls with [] => [] | _ :: _ => if String.eqb (last ls "") "" then removelast ls else ls end) with (if String.eqb (last ls "") "" then removelast ls else ls) by (destruct ls; [congruence|reflexivity]).
  replace (match ls with [] => [] | _ :: _ => if negb (String.eqb (last ls "") "") then ls ++ [""] else ls end) with (if negb (String.eqb (last ls "") "") then ls ++ [""] else ls) by (destruct ls; [congruence|reflexivity]).
  destruct (String.eqb_spec (last ls "") "") as [El|El]; cbn [negb].
  - rewrite join_split by assumption. destruct (String.eqb_spec (last ls "") ""); [reflexivity|contradiction].
  - rewrite join_split; [|destruct ls; discriminate|intros b Hb; apply in_app_or in Hb as [Hb|[<-|[]]]; [exact (N b Hb)|reflexivity]]. rewrite last_last. cbn. apply removelast_last.
Qed.
Lemma drop_last_blank_split ls : ls = drop_last_blank ls \/ ls = drop_last_blank ls ++ [""].
Proof.
  unfold drop_last_blank. destruct ls as [|x l]; [auto|]. set (ls := x :: l). destruct (String.eqb_spec (last ls "") "") as [E|E]; [|auto]. right. rewrite <- E at 1. apply app_removelast_last. discriminate.
Qed.
Lemma last_app_ne {A} (l m : list A) d : m <> [] -> last (l ++ m) d = last m d.
Proof. intros H. destruct (exists_last H) as (m' & x & ->). rewrite app_assoc, !last_last. reflexivity. Qed.
Lemma last_in {A} (l : list A) d : l <> [] -> In (last l d) l.
Proof. intros H. destruct (exists_last H) as (m & x & ->). rewrite last_last. apply in_or_app. right. left. reflexivity. Qed.
Lemma dlb_para p : paragraph p -> drop_last_blank p = p /\ drop_last_blank (p ++ [""]) = p.
Proof.
  intros [Hne Hp]. unfold drop_last_blank. split.
  - destruct p as [|x p]; [congruence|]. destruct (String.eqb_spec (last (x :: p) "") "") as [E|]; [|reflexivity]. exfalso. apply (Hp (last (x :: p) "")); [apply last_in; discriminate|exact E].
  - destruct (p ++ [""]) as [|x q] eqn:E; [destruct p; discriminate|]. rewrite <- E, last_last. cbn. apply removelast_last.
Qed.
Lemma dlb_app p ls : ls <> [] -> drop_last_blank (p ++ ls) = p ++ drop_last_blank ls.
Proof.
  intros H. unfold drop_last_blank. destruct ls as [|x l]; [congruence|]. destruct (p ++ x :: l) as [|y q] eqn:E; [destruct p; discriminate|]. rewrite <- E, last_app_ne by discriminate. destruct (String.eqb (last (x :: l) "") ""); [|reflexivity]. apply removelast_app. discriminate.
Qed.
Lemma collapse_spaced n : forall raw, List.length raw <= n -> spaced raw (drop_last_blank (collapse None raw)) /\ (collapse None raw <> [] -> drop_last_blank (collapse None raw) <> []).
Proof.
  induction n as [|n IH]; intros raw L.
  - destruct raw; [|simpl in L; lia]. split; [apply (spaced_end 0)|intros H; exact H].
  - destruct raw as [|l raw]; [split; [apply (spaced_end 0)|intros H; exact H]|]. simpl in L. cbn [collapse]. destruct (String.eqb_spec l "") as [->|E]; cbn [negb orb].
    + destruct (IH raw ltac:(lia)) as [H1 H2]. split; [apply spaced_blank, H1|exact H2].
    + rewrite (collapse_some l raw E). pose proof (para_split raw) as Sp. assert (Pl : paragraph (l :: take_para raw)) by (split; [discriminate|]; intros x [<-|Hx]; [exact E|exact (take_para_nonblank _ _ Hx)]).
      destruct (drop_para raw) as [|b r] eqn:D.
      * rewrite app_nil_r. rewrite (proj1 (dlb_para _ Pl)). split; [|intros _; discriminate]. rewrite app_nil_r in Sp. rewrite Sp at 1. pose proof (spaced_last 0 _ 0 Pl) as S0. simpl in S0. rewrite app_nil_r in S0. exact S0.
      * pose proof (drop_para_head _ _ _ D) as ->. rewrite collapse_blank. assert (Lr : List.length r <= n) by (rewrite Sp in L; rewrite app_length in L; simpl in L; lia). destruct (IH r Lr) as [H1 H2].
        change (l :: take_para raw ++ "" :: collapse None r) with ((l :: take_para raw) ++ "" :: collapse None r). rewrite Sp at 1.
        destruct (collapse None r) as [|y q] eqn:C.
        -- rewrite (proj2 (dlb_para _ Pl)). split; [|intros _; discriminate]. assert (Hr : exists m, r = repeat "" m).
           { inversion H1 as [m Em|k p m P E1 E2|k p raw' ls' P N S0 E1 E2]; [exists m; reflexivity| |].
             - exfalso. destruct P as [P _]. apply P. reflexivity.
             - exfalso. change (drop_last_blank []) with (@nil string) in E2. destruct p; discriminate. }
           destruct Hr as [m ->]. exact (spaced_last 0 _ (S m) Pl).
        -- change ("" :: y :: q) with ([""] ++ (y :: q)). rewrite app_assoc, dlb_app by discriminate. rewrite <- app_assoc. split; [|intros _; discriminate]. apply (spaced_more 0 (l :: take_para raw) r); [exact Pl|apply H2; discriminate|exact H1].
Qed.
Lemma seen_spaced cs : spaced (flat_map comment_lines cs) (seen_lines cs).
Proof. rewrite seen_lines_eq. exact (proj1 (collapse_spaced _ _ (le_n _))). Qed.

(** ** Lines kept *)
Definition odd_fences (pre : list string) : bool := Nat.odd (List.length (filter fence pre)).
Lemma odd_snoc pre l : odd_fences (pre ++ [l]) = if fence l then negb (odd_fences pre) else odd_fences pre.
Proof.
  unfold odd_fences. rewrite filter_app, app_length. simpl. destruct (fence l); simpl; [|rewrite Nat.add_0_r; reflexivity]. rewrite Nat.add_1_r, Nat.odd_succ, <- Nat.negb_odd. reflexivity.
Qed.
Lemma in_code_at pre l rest : in_code (pre ++ l :: rest) (List.length pre) <-> odd_fences (pre ++ [l]) = true.
Proof. unfold in_code, odd_fences. replace (firstn (S (List.length pre)) (pre ++ l :: rest)) with (pre ++ [l]); [reflexivity|]. change (l :: rest) with ([l] ++ rest). rewrite app_assoc. replace (S (List.length pre)) with (List.length (pre ++ [l])) by (rewrite app_length; simpl; lia). rewrite firstn_app, firstn_all, Nat.sub_diag, app_nil_r. reflexivity. Qed.
Lemma nth_at {A} (pre : list A) l rest d : nth (List.length pre) (pre ++ l :: rest) d = l.
Proof. rewrite app_nth2, Nat.sub_diag by lia. reflexivity. Qed.

Lemma doc_lines_kept ls : forall pre, (forall j, j < List.length pre -> ~ is_end (pre ++ ls) j) ->
  exists is, doc_lines (odd_fences pre) ls = map (fun i => nth i (pre ++ ls) "") is /\ StronglySorted lt is /\ (forall i, In i is <-> List.length pre <= i /\ kept (pre ++ ls) i).
Proof.
  induction ls as [|l ls IH]; intros pre Hend.
  - exists []. split; [reflexivity|]. split; [constructor|]. intros i. split; [intros []|]. intros [H (L & _)]. rewrite app_nil_r in L. lia.
  - cbn [doc_lines]. fold (fence l). rewrite <- odd_snoc. set (code := odd_fences (pre ++ [l])).
    assert (Eall : pre ++ l :: ls = (pre ++ [l]) ++ ls) by (rewrite <- app_assoc; reflexivity).
    assert (Hcode : in_code (pre ++ l :: ls) (List.length pre) <-> code = true) by apply in_code_at.
    assert (Hnth : nth (List.length pre) (pre ++ l :: ls) "" = l) by apply nth_at.
    assert (Hlen : List.length (pre ++ [l]) = S (List.length pre)) by (rewrite app_length; simpl; lia).
    assert (Todo_no_end : has_prefix "TODO" l = true -> has_prefix "---" l = false).
    { intros H. apply has_prefix_spec in H as [t ->]. reflexivity. }
    destruct (negb code && has_prefix "---" l) eqn:Dash.
    + apply andb_true_iff in Dash as [D1 D2]. apply negb_true_iff in D1. replace (negb code && has_prefix "TODO" l) with false.
      * exists []. split; [reflexivity|]. split; [constructor|]. intros i. split; [intros []|]. intros [H (_ & _ & He)]. exfalso. apply (He (List.length pre) H). split; [rewrite Hcode; congruence|rewrite Hnth; exact D2].
      * symmetry. apply andb_false_iff. right. apply not_true_is_false. intros H. rewrite (Todo_no_end H) in D2. discriminate.
    + assert (Hend' : forall j, j < List.length (pre ++ [l]) -> ~ is_end ((pre ++ [l]) ++ ls) j).
      { intros j Hj. rewrite <- Eall. rewrite Hlen in Hj. destruct (Nat.eq_dec j (List.length pre)) as [->|E]; [|apply Hend; lia]. intros [C P]. rewrite Hnth in P. rewrite Hcode in C. destruct code; [apply C; reflexivity|]. rewrite P in Dash. discriminate. }
      destruct (IH (pre ++ [l]) Hend') as (is & E & Srt & Hin). fold code in E. rewrite <- Eall in E, Hin. rewrite Hlen in Hin.
      destruct (negb code && has_prefix "TODO" l) eqn:Todo.
      * exists is. split; [exact E|]. split; [exact Srt|]. intros i. rewrite Hin. apply andb_true_iff in Todo as [T1 T2]. apply negb_true_iff in T1. split; [intros [H K]; split; [lia|exact K]|]. intros [H K]. split; [|exact K].
        destruct (Nat.eq_dec i (List.length pre)) as [->|]; [|lia]. exfalso. destruct K as (_ & Kt & _). apply Kt. split; [rewrite Hcode; congruence|rewrite Hnth; exact T2].
      * exists (List.length pre :: is). split; [cbn [map]; rewrite Hnth, E; reflexivity|]. split.
        -- constructor; [exact Srt|]. apply Forall_forall. intros i Hi. apply Hin in Hi. lia.
        -- intros i. cbn [In]. rewrite Hin. split.
           ++ intros [<-|[H K]]; [|split; [lia|exact K]]. split; [lia|]. split; [rewrite app_length; simpl; lia|]. split.
              ** intros [C P]. rewrite Hnth in P. rewrite Hcode in C. destruct code; [apply C; reflexivity|]. rewrite P in Todo. discriminate.
              ** intros j Hj. rewrite Eall. apply Hend'. rewrite Hlen. lia.
           ++ intros [H K]. destruct (Nat.eq_dec i (List.length pre)) as [->|]; [left; reflexivity|right; split; [lia|exact K]].
Qed.

Lemma extract_eq cs : exists V is, let out := filter (fun c => negb (is_marker_comment c)) cs in
  V = seen_lines out /\ extract_doc (Some cs) = join (String nl "") (map (fun i => nth i (map (fun l => if existsb (has_prefix "/*") out then trim_space l else l) V) "") is) /\ StronglySorted lt is /\
  forall i, In i is <-> kept (map (fun l => if existsb (has_prefix "/*") out then trim_space l else l) V) i.
Proof.
  cbv zeta. set (out := filter (fun c => negb (is_marker_comment c)) cs). exists (seen_lines out). set (V := map (fun l => if existsb (has_prefix "/*") out then trim_space l else l) (seen_lines out)).
  destruct (doc_lines_kept V []) as (is & E & Srt & Hin); [intros j H; simpl in H; lia|]. exists is. split; [reflexivity|]. split.
  - unfold extract_doc. fold out. change (odd_fences []) with false in E. simpl app in E. rewrite <- E. reflexivity.
  - split; [exact Srt|]. intros i. rewrite Hin. simpl. split; [tauto|intros K; split; [lia|exact K]].
Qed.
Lemma texts_exist cs : Forall comment cs -> Forall2 text_of cs (map comment_lines cs).
Proof. induction 1; cbn [map]; constructor; [apply text_exists; assumption|assumption]. Qed.
Lemma texts_fun cs ls ls' : Forall2 text_of cs ls -> Forall2 text_of cs ls' -> ls = ls'.
Proof. intros H. revert ls'. induction H; intros ls' H'; inversion H'; subst; [reflexivity|]. f_equal; [eapply text_fun; eassumption|auto]. Qed.
Lemma without_filter cs : without_markers cs (filter (fun c => negb (is_marker_comment c)) cs).
Proof.
  induction cs as [|c cs IH]; [constructor|]. cbn [filter]. destruct (is_marker_comment c) eqn:E; cbn [negb]; [apply without_skip; [apply marker_iff, E|exact IH]|apply without_keep; [intros M; apply marker_iff in M; congruence|exact IH]].
Qed.
Lemma without_fun cs out : without_markers cs out -> out = filter (fun c => negb (is_marker_comment c)) cs.
Proof.
  induction 1 as [|c cs out M H IH|c cs out M H IH]; [reflexivity| |]; cbn [filter].
  - rewrite (proj2 (marker_iff c) M). exact IH.
  - replace (is_marker_comment c) with false by (symmetry; apply not_true_is_false; intros E; apply marker_iff in E; contradiction). cbn [negb]. f_equal. exact IH.
Qed.
Lemma spaced_in raw V x : spaced raw V -> In x V -> In x raw \/ x = "".
Proof.
  induction 1 as [k|k p m P|k p raw V P N H IH]; intros Hx; [destruct Hx| |].
  - left. apply in_or_app. right. apply in_or_app. left. exact Hx.
  - apply in_app_or in Hx as [Hx|[<-|Hx]]; [left; apply in_or_app; right; apply in_or_app; left; exact Hx|right; reflexivity|]. destruct (IH Hx) as [Hr| ->]; [|right; reflexivity]. left. apply in_or_app. right. apply in_or_app. right. right. exact Hr.
Qed.

Lemma doc_main cs out texts : Forall comment cs -> without_markers cs out -> Forall2 text_of out texts ->
  exists V is, spaced (List.concat texts) V /\
    let ls := if existsb (has_prefix "/*") out then map trim_space V else V in
    extract_doc (Some cs) = join (String nl "") (map (fun i => nth i ls "") is) /\ StronglySorted lt is /\ forall i, In i is <-> kept ls i.
Proof.
  intros Hc Hw Ht. destruct (extract_eq cs) as (V & is & EV & E & Srt & Hin). rewrite <- (without_fun _ _ Hw) in *. exists V, is. split.
  - assert (Ho : Forall comment out) by (rewrite (without_fun _ _ Hw); apply Forall_forall; intros c Hx; apply filter_In in Hx as [Hx _]; rewrite Forall_forall in Hc; auto).
    rewrite (texts_fun _ _ _ Ht (texts_exist _ Ho)), EV, <- flat_map_concat_map. apply seen_spaced.
  - cbv zeta. destruct (existsb (has_prefix "/*") out); [auto|]. rewrite map_id in *. auto.
Qed.

(** ** No marker line in the result *)
Lemma white_space a : is_white a = true -> is_space a = true.
Proof. unfold is_white, is_space. rewrite !orb_true_iff, !Nat.eqb_eq, andb_true_iff, !Nat.leb_le. lia. Qed.
Lemma marker_line_app b w : marker_line b -> marker_line (b ++ w).
Proof. intros (v & t & -> & H). exists v, (t ++ w)%string. rewrite !str_app_assoc. auto. Qed.
Lemma not_marker_text c ls l : text_of c ls -> has_prefix "//" c = true -> ~ marker c -> In l ls -> ~ marker_line l.
Proof.
  intros T Hp Hm Hin Ml. apply Hm. destruct T as [b l' (w & -> & _)|b l' _ _ (w & -> & _)|b _ _|bs ls _ _ _]; [| |destruct Hin|discriminate].
  - destruct Hin as [<-|[]]. exists (" " ++ (l' ++ w))%string. split; [reflexivity|]. apply (marker_line_app _ w) in Ml. destruct Ml as (v & t & -> & Hv). exists (String " " v), t. split; [reflexivity|]. apply all_in_cons. auto.
  - destruct Hin as [<-|[]]. exists (l' ++ w)%string. split; [reflexivity|]. apply marker_line_app, Ml.
Qed.
Lemma no_marker_in_doc cs l : Forall (fun c => exists b, c = ("//" ++ b)%string /\ has_char nl b = false) cs -> In l (split_char nl (extract_doc (Some cs))) -> ~ marker_line l.
Proof.
  intros Hc Hl. assert (Hcc : Forall comment cs) by (eapply Forall_impl; [|exact Hc]; intros c H; left; exact H).
  set (out := filter (fun c => negb (is_marker_comment c)) cs). assert (Ho : Forall comment out) by (apply Forall_forall; intros c Hx; apply filter_In in Hx as [Hx _]; rewrite Forall_forall in Hcc; auto).
  assert (Hslash : forall c, In c out -> has_prefix "//" c = true) by (intros c Hx; apply filter_In in Hx as [Hx _]; rewrite Forall_forall in Hc; destruct (Hc c Hx) as (b & -> & _); apply has_prefix_app).
  destruct (doc_main cs out (map comment_lines out) Hcc (without_filter cs) (texts_exist _ Ho)) as (V & is & Sp & E & Srt & Hin).
  replace (existsb (has_prefix "/*") out) with false in E, Hin.
  2: { symmetry. apply not_true_is_false. intros H. apply existsb_exists in H as (c & Hx & P). pose proof (Hslash c Hx) as P'. apply has_prefix_spec in P as [t ->]. discriminate. }
  assert (NM : forall x, In x V -> ~ marker_line x).
  { intros x Hx. destruct (spaced_in _ _ _ Sp Hx) as [Hx'| ->].
    - rewrite <- flat_map_concat_map in Hx'. apply in_flat_map in Hx' as (c & Hc' & Hx'). apply (not_marker_text c (comment_lines c) x); [|apply Hslash, Hc'| |exact Hx'].
      + rewrite Forall_forall in Ho. apply text_exists. auto.
      + apply filter_In in Hc' as [_ Hn]. apply negb_true_iff in Hn. intros M. apply marker_iff in M. congruence.
    - intros (w & t & H & _). destruct w; discriminate. }
  assert (NL : forall x, In x V -> has_char nl x = false).
  { intros x Hx. destruct (spaced_in _ _ _ Sp Hx) as [Hx'| ->]; [|reflexivity]. rewrite <- flat_map_concat_map in Hx'. apply in_flat_map in Hx' as (c & _ & Hx'). exact (comment_lines_no _ _ Hx'). }
  rewrite E in Hl. destruct is as [|i is].
  - simpl in Hl. destruct Hl as [<-|[]]. intros (w & t & H & _). destruct w; discriminate.
  - rewrite join_split in Hl; [|discriminate|].
    + apply in_map_iff in Hl as (j & <- & Hj). apply NM. apply Hin in Hj as (Lj & _). apply nth_In, Lj.
    + intros b Hb. apply in_map_iff in Hb as (j & <- & Hj). apply NL. apply Hin in Hj as (Lj & _). apply nth_In, Lj.
Qed.

(** ** Plain prose *)
Lemma doc_lines_plain ls : (forall l, In l ls -> fence l = false /\ has_prefix "TODO" l = false /\ has_prefix "---" l = false) -> doc_lines false ls = ls.
Proof.
  induction ls as [|l ls IH]; intros H; [reflexivity|]. cbn [doc_lines]. destruct (H l (or_introl eq_refl)) as (F & T & D). fold (fence l). rewrite F, T, D. cbn. f_equal. apply IH. auto with datatypes.
Qed.
Lemma doc_plain ls : (forall l, In l ls -> l <> "" /\ has_char nl l = false /\ stripped l l /\ ~ marker_line l /\ fence l = false /\ has_prefix "TODO" l = false /\ has_prefix "---" l = false) ->
  extract_doc (Some (map (fun l => "// " ++ l)%string ls)) = join (String nl "") ls.
Proof.
  intros H. unfold extract_doc.
  assert (F : filter (fun c => negb (is_marker_comment c)) (map (fun l => "// " ++ l)%string ls) = map (fun l => "// " ++ l)%string ls).
  { clear -H. induction ls as [|l ls IH]; [reflexivity|]. cbn [map filter]. rewrite IH by auto with datatypes. replace (is_marker_comment ("// " ++ l)) with false; [reflexivity|]. symmetry. apply not_true_is_false. intros M. apply marker_iff in M as (b & E & (w & t & Eb & Hw)).
    destruct (H l (or_introl eq_refl)) as (_ & _ & _ & N & _). apply N. injection E as <-. destruct w as [|a w]; [discriminate|]. injection Eb as <- Eb. exists w, t. split; [exact Eb|]. apply all_in_cons in Hw. tauto. }
  rewrite F. replace (existsb (has_prefix "/*") (map (fun l => "// " ++ l)%string ls)) with false by (symmetry; apply not_true_is_false; intros X; apply existsb_exists in X as (c & Hx & P); apply in_map_iff in Hx as (l & <- & _); discriminate).
  rewrite map_id. fold (seen_lines (map (fun l => "// " ++ l)%string ls)). rewrite seen_lines_eq.
  assert (T : flat_map comment_lines (map (fun l => "// " ++ l)%string ls) = ls).
  { clear -H. induction ls as [|l ls IH]; [reflexivity|]. cbn [map flat_map]. rewrite IH by auto with datatypes. destruct (H l (or_introl eq_refl)) as (_ & N & S0 & _). unfold comment_lines. change (has_prefix "/*" ("// " ++ l)) with false. change (str_drop 2 ("// " ++ l)) with (String " " l). cbv iota beta. change (Ascii.eqb " " " ") with true. cbv iota beta. rewrite split_char_nosep by exact N. cbn [map]. apply stripped_iff in S0. rewrite S0. reflexivity. }
  rewrite T. assert (C : drop_last_blank (collapse None ls) = ls).
  { destruct ls as [|l ls]; [reflexivity|]. assert (P : paragraph (l :: ls)) by (split; [discriminate|]; intros x Hx; destruct (H x Hx) as (K & _); exact K).
    assert (Ct : forall m prev, (forall x, In x m -> x <> "") -> collapse prev m = m).
    { induction m as [|x m IH]; intros prev Hm; [reflexivity|]. cbn [collapse]. destruct (String.eqb_spec x "") as [E|E]; [exfalso; exact (Hm x (or_introl eq_refl) E)|]. cbn. f_equal. apply IH. auto with datatypes. }
    rewrite Ct by (destruct P as [_ P]; exact P). exact (proj1 (dlb_para _ P)). }
  rewrite C. rewrite doc_lines_plain; [reflexivity|]. intros l Hl. destruct (H l Hl) as (_ & _ & _ & _ & K). exact K.
Qed.
