(** * C69: every level of the help goes where it should, and the JSON says all that the documentation says *)

From Coq Require Import List String Ascii Bool Arith Lia.
From Verif Require Import GoLib RegistryModel RegistrySpec ParseModel HelpModel HelpSpec HelpProps.
From Verif Require Import PrettyModel PrettySpec PrettyProofs PrettyProofs2 PrettyProps.
From Verif Require Import SchemaModel LevelsModel LevelsSpec.
Import ListNotations.
Open Scope string_scope.
Open Scope list_scope.

(** ** The JSON *)

Lemma member_in l k v : In (k, v) l -> member (JObj l) k v.
Proof. intros H; exists l; split; [reflexivity|exact H]. Qed.
Lemma absent_out l k : ~ In k (map fst l) -> absent (JObj l) k.
Proof. intros H v (l' & E & I). injection E as <-. apply H. apply (in_map fst) in I. exact I. Qed.

Ltac keys := simpl; intuition (try discriminate; auto).

Lemma detail_keys d k : In k (map fst (detail_members d)) -> k = "summary" \/ k = "details".
Proof. unfold detail_members. destruct (String.eqb (details d) ""); keys. Qed.
Lemma argument_keys a k : In k (map fst (argument_members a)) -> k = "type" \/ k = "optional" \/ k = "itemType".
Proof. destruct a as [t o [b|]]; keys. Qed.
Lemma detail_nodup d : NoDup (map fst (detail_members d)).
Proof. unfold detail_members. destruct (String.eqb (details d) ""); simpl; repeat constructor; keys. Qed.
Lemma argument_nodup a : NoDup (map fst (argument_members a)).
Proof. destruct a as [t o [b|]]; simpl; repeat constructor; keys. Qed.
Lemma nodup_app (a b : list string) : NoDup a -> NoDup b -> (forall x, In x a -> In x b -> False) -> NoDup (a ++ b).
Proof.
  induction a as [|x a IH]; intros A B H; simpl; [exact B|]. inversion A; subst. constructor.
  - rewrite in_app_iff. intros [I|I]; [contradiction|apply (H x); [left; reflexivity|exact I]].
  - apply IH; auto. intros y Y Z; apply (H y); [right; exact Y|exact Z].
Qed.

Lemma detail_proper d : Forall (fun kv : string * json => proper (snd kv)) (detail_members d).
Proof. unfold detail_members. destruct (String.eqb (details d) ""); repeat constructor. Qed.
Fixpoint argument_proper (a : hargument) : Forall (fun kv : string * json => proper (snd kv)) (argument_members a).
Proof.
  destruct a as [t o [b|]]; simpl.
  - constructor; [apply P_str|]. constructor; [apply P_bool|]. constructor; [|constructor]. apply P_obj; [apply argument_nodup|apply argument_proper].
  - constructor; [apply P_str|]. constructor; [apply P_bool|]. constructor.
Qed.
Lemma field_proper f : proper (field_json f).
Proof.
  unfold field_json. apply P_obj.
  - rewrite !map_app. simpl. constructor.
    + rewrite in_app_iff. intros [H|H]; [apply argument_keys in H | apply detail_keys in H]; repeat destruct H as [H|H]; discriminate.
    + apply nodup_app; [apply argument_nodup|apply detail_nodup|]. intros x A D. apply argument_keys in A. apply detail_keys in D.
      destruct D as [->| ->]; repeat destruct A as [A|A]; discriminate.
  - apply Forall_app; split; [repeat constructor|]. apply Forall_app; split; [apply argument_proper|apply detail_proper].
Qed.
Lemma marker_proper m : proper (marker_json m).
Proof.
  unfold marker_json. apply P_obj.
  - rewrite !map_app.
    pose proof (detail_keys (md_detail m)) as DK. pose proof (detail_nodup (md_detail m)) as DN.
    set (dk := map fst (detail_members (md_detail m))) in *. clearbody dk. cbn [map fst app].
    assert (R : forall k, In k (map fst (match md_deprecated m with Some u => [("deprecatedInFavorOf", JStr u)] | None => [] end) ++
        map fst (match md_fields m with [] => [] | fs => [("fields", JArr (map field_json fs))] end)) -> k = "deprecatedInFavorOf" \/ k = "fields").
    { intros k. rewrite in_app_iff. destruct (md_deprecated m), (md_fields m); keys. }
    assert (Nd : NoDup (map fst (match md_deprecated m with Some u => [("deprecatedInFavorOf", JStr u)] | None => [] end) ++
        map fst (match md_fields m with [] => [] | fs => [("fields", JArr (map field_json fs))] end))).
    { destruct (md_deprecated m), (md_fields m); simpl; repeat constructor; keys. }
    set (rest := map fst (match md_deprecated m with Some u => _ | None => _ end) ++ _) in *. clearbody rest.
    constructor; [|constructor].
    + simpl. rewrite in_app_iff. simpl. intros [H|[H|[H|H]]]; try discriminate; [apply DK in H | apply R in H]; destruct H; discriminate.
    + rewrite in_app_iff. simpl. intros [H|[H|H]]; try discriminate; [apply DK in H | apply R in H]; destruct H; discriminate.
    + apply nodup_app; [exact DN| |].
      * constructor; [|exact Nd]. intros H; apply R in H; destruct H; discriminate.
      * intros x D H. apply DK in D. destruct H as [<-|H]; [destruct D; discriminate|]. apply R in H. destruct H; subst; destruct D; discriminate.
  - apply Forall_app; split; [repeat constructor|]. apply Forall_app; split; [apply detail_proper|]. apply Forall_app; split; [repeat constructor|].
    apply Forall_app; split; [destruct (md_deprecated m); repeat constructor|].
    destruct (md_fields m) as [|f fs]; constructor; [|constructor]. cbn [snd]. apply P_arr. apply Forall_forall. intros j I.
    change (In j (map field_json (f :: fs))) in I. apply in_map_iff in I. destruct I as (g & <- & _). apply field_proper.
Qed.
Lemma category_proper c : proper (category_json c).
Proof.
  apply P_obj; [simpl; repeat constructor; keys|]. repeat constructor. simpl. apply Forall_forall. intros j I. apply in_map_iff in I.
  destruct I as (m & <- & _). apply marker_proper.
Qed.

Fixpoint argument_says (a : hargument) l (Hl : forall k v, In (k, v) (argument_members a) -> In (k, v) l)
  (Hk : forall k, In k (map fst l) -> k = "itemType" -> In k (map fst (argument_members a))) {struct a} : argument_said (JObj l) a.
Proof.
  destruct a as [t o [b|]].
  - apply (A_items _ t o (JObj (argument_members b))).
    + apply member_in, Hl. left; reflexivity.
    + apply member_in, Hl. right; left; reflexivity.
    + apply member_in, Hl. right; right; left; reflexivity.
    + apply argument_says; auto.
  - apply A_plain.
    + apply member_in, Hl. left; reflexivity.
    + apply member_in, Hl. right; left; reflexivity.
    + apply absent_out. intros I. specialize (Hk _ I eq_refl). simpl in Hk. repeat destruct Hk as [Hk|Hk]; try discriminate; contradiction.
Qed.
Lemma details_says d l : (forall kv, In kv (detail_members d) -> In kv l) ->
  (In "details" (map fst l) -> In "details" (map fst (detail_members d))) -> says (JObj l) "details" (details d).
Proof.
  intros Hl Hk. unfold says, detail_members in *. destruct (String.eqb_spec (details d) "") as [E|E].
  - right. split; [|exact E]. apply absent_out. intros I. specialize (Hk I). simpl in Hk. destruct Hk as [Hk|Hk]; [discriminate|contradiction].
  - left. apply member_in, Hl. right; left; reflexivity.
Qed.
Lemma field_says f : field_said (field_json f) f.
Proof.
  unfold field_json. split.
  - apply member_in. left; reflexivity.
  - apply argument_says.
    + intros k v I. rewrite !in_app_iff. auto.
    + intros k I ->. rewrite !map_app, !in_app_iff in I. destruct I as [[I|[]]|[I|I]]; [discriminate|exact I|]. apply detail_keys in I. destruct I; discriminate.
  - apply member_in. rewrite !in_app_iff. right; right. left; reflexivity.
  - apply details_says.
    + intros kv I. rewrite !in_app_iff. auto.
    + intros I. rewrite !map_app, !in_app_iff in I. destruct I as [[I|[]]|[I|I]]; [discriminate| |exact I]. apply argument_keys in I. repeat destruct I as [I|I]; discriminate.
Qed.
Lemma says_all (A : Type) (enc : A -> json) (said : json -> A -> Prop) l : (forall x, said (enc x) x) -> Forall2 said (map enc l) l.
Proof. intros H; induction l; simpl; constructor; auto. Qed.
Lemma marker_says m : marker_said (marker_json m) m.
Proof.
  unfold marker_json.
  set (dep := match md_deprecated m with Some u => [("deprecatedInFavorOf", JStr u)] | None => [] end).
  set (fields := match md_fields m with [] => [] | fs => [("fields", JArr (map field_json fs))] end).
  assert (KD : forall k, In k (map fst dep) -> k = "deprecatedInFavorOf") by (unfold dep; destruct (md_deprecated m); keys).
  assert (KF : forall k, In k (map fst fields) -> k = "fields") by (unfold fields; destruct (md_fields m); keys).
  assert (K : forall k, In k (map fst ([("name", JStr (md_name m)); ("target", JStr (md_target m))] ++ detail_members (md_detail m) ++
        [("category", JStr (md_category m))] ++ dep ++ fields)) <->
      k = "name" \/ k = "target" \/ In k (map fst (detail_members (md_detail m))) \/ k = "category" \/ In k (map fst dep) \/ In k (map fst fields)).
  { intros k. rewrite !map_app, !in_app_iff. simpl. intuition auto. }
  split.
  - apply member_in. left; reflexivity.
  - apply member_in. right; left; reflexivity.
  - apply member_in. rewrite !in_app_iff. right; left. left; reflexivity.
  - apply details_says.
    + intros kv I. rewrite !in_app_iff. auto.
    + intros I. apply K in I. destruct I as [I|[I|[I|[I|[I|I]]]]]; try discriminate; [exact I|apply KD in I; discriminate|apply KF in I; discriminate].
  - apply member_in. rewrite !in_app_iff. right; right; left. left; reflexivity.
  - destruct (md_deprecated m) as [u|] eqn:E.
    + apply member_in. rewrite !in_app_iff. right; right; right; left. unfold dep; left; reflexivity.
    + apply absent_out. intros I. apply K in I. destruct I as [I|[I|[I|[I|[I|I]]]]]; try discriminate.
      * apply detail_keys in I. destruct I; discriminate.
      * exact I.
      * apply KF in I; discriminate.
  - destruct (md_fields m) as [|f fs] eqn:E.
    + right. split; [|reflexivity]. apply absent_out. intros I. apply K in I. destruct I as [I|[I|[I|[I|[I|I]]]]]; try discriminate.
      * apply detail_keys in I. destruct I; discriminate.
      * apply KD in I; discriminate.
      * exact I.
    + left. exists (map field_json (f :: fs)). split; [|apply says_all; apply field_says].
      apply member_in. rewrite !in_app_iff. right; right; right; right. unfold fields; left; reflexivity.
Qed.
Lemma category_says c : category_said (category_json c) c.
Proof.
  split; [apply member_in; left; reflexivity|]. exists (map marker_json (cd_markers c)).
  split; [apply member_in; right; left; reflexivity|]. apply says_all, marker_says.
Qed.

(** What is said in a JSON value with no name twice is said of one documentation only. *)
Lemma one_value l k v v' : NoDup (map fst l) -> member (JObj l) k v -> member (JObj l) k v' -> v = v'.
Proof.
  intros N (a & A & I) (b & B & J). injection A as <-. injection B as <-. revert N I J. induction l as [|[x y] l IH]; simpl; intros N I J; [contradiction|].
  inversion N; subst. destruct I as [I|I], J as [J|J]; try congruence; auto.
  - injection I as -> ->. exfalso. apply H1. apply (in_map fst) in J. exact J.
  - injection J as -> ->. exfalso. apply H1. apply (in_map fst) in I. exact I.
Qed.
Lemma proper_one j k v v' : proper j -> member j k v -> member j k v' -> v = v'.
Proof. intros P M M'. pose proof M as (l & -> & _). inversion P; subst. eapply one_value; eassumption. Qed.
Lemma proper_member j k v : proper j -> member j k v -> proper v.
Proof. intros P (l & -> & I). inversion P as [| | | |l' N F]; subst. rewrite Forall_forall in F. exact (F _ I). Qed.
Lemma one_text j k t t' : proper j -> says j k t -> says j k t' -> t = t'.
Proof.
  intros P [M|[A E]] [M'|[A' E']]; [|destruct (A' _ M)|destruct (A _ M')|congruence].
  pose proof (proper_one _ _ _ _ P M M'). congruence.
Qed.
Lemma one_argument j a : argument_said j a -> forall b, proper j -> argument_said j b -> a = b.
Proof.
  induction 1 as [j t o T O N|j t o i a' T O M A' IH]; intros b P B; destruct B as [j t2 o2 T2 O2 N2|j t2 o2 i2 b2 T2 O2 M2 B2].
  - pose proof (proper_one _ _ _ _ P T T2). pose proof (proper_one _ _ _ _ P O O2). congruence.
  - destruct (N _ M2).
  - destruct (N2 _ M).
  - pose proof (proper_one _ _ _ _ P T T2). pose proof (proper_one _ _ _ _ P O O2). pose proof (proper_one _ _ _ _ P M M2). subst i2.
    rewrite (IH b2 (proper_member _ _ _ P M) B2). congruence.
Qed.
Lemma forall2_one (A : Type) (said : json -> A -> Prop) l : forall a b, (forall j x y, In j l -> said j x -> said j y -> x = y) ->
  Forall2 said l a -> Forall2 said l b -> a = b.
Proof.
  induction l as [|j l IH]; intros a b H A' B'; inversion A'; inversion B'; subst; [reflexivity|]. f_equal.
  - eapply H; [left; reflexivity|eassumption|eassumption].
  - apply IH; auto. intros; eapply H; [right|..]; eassumption.
Qed.
Lemma proper_items j l k : proper j -> member j k (JArr l) -> forall i, In i l -> proper i.
Proof. intros P M i I. apply (proper_member _ _ _ P) in M. inversion M as [| | |l' F|]; subst. rewrite Forall_forall in F. auto. Qed.
Lemma one_field j f g : proper j -> field_said j f -> field_said j g -> f = g.
Proof.
  intros P [N A S D] [N' A' S' D']. destruct f as [n a [s d]], g as [n' a' [s' d']]; simpl in *.
  pose proof (proper_one _ _ _ _ P N N'). pose proof (proper_one _ _ _ _ P S S'). pose proof (one_text _ _ _ _ P D D').
  pose proof (one_argument _ _ A _ P A'). congruence.
Qed.
Lemma one_marker j m m' : proper j -> marker_said j m -> marker_said j m' -> m = m'.
Proof.
  intros P [N T S D C E F] [N' T' S' D' C' E' F']. destruct m as [n t [s d] c e f], m' as [n' t' [s' d'] c' e' f']; simpl in *.
  pose proof (proper_one _ _ _ _ P N N'). pose proof (proper_one _ _ _ _ P T T'). pose proof (proper_one _ _ _ _ P S S').
  pose proof (one_text _ _ _ _ P D D'). pose proof (proper_one _ _ _ _ P C C').
  assert (e = e').
  { destruct e, e'; try reflexivity; [|destruct (E' _ E)|destruct (E _ E')]. pose proof (proper_one _ _ _ _ P E E'). congruence. }
  assert (f = f').
  { destruct F as [(l & M & F)|[A ->]], F' as [(l' & M' & F')|[A' ->]]; [|destruct (A' _ M)|destruct (A _ M')|reflexivity].
    pose proof (proper_one _ _ _ _ P M M') as El. injection El as <-. apply (forall2_one _ field_said l); auto.
    intros i x y I. apply one_field. eapply proper_items; eassumption. }
  congruence.
Qed.
Lemma one_category j c c' : proper j -> category_said j c -> category_said j c' -> c = c'.
Proof.
  intros P (C & l & M & F) (C' & l' & M' & F'). destruct c as [c ms], c' as [c' ms']; simpl in *.
  pose proof (proper_one _ _ _ _ P C C'). pose proof (proper_one _ _ _ _ P M M') as El. injection El as <-.
  assert (ms = ms') by (apply (forall2_one _ marker_said l); auto; intros i x y I; apply one_marker; eapply proper_items; eassumption). congruence.
Qed.

(** The JSON goes to the standard output and nothing goes to the standard error; it is an array of one object for each category, without
    exception, in order; no object has two members of one name; each says its category, and nothing that is not of that category. *)
Theorem levels_json info : exists l, help_for_levels 4 info = mkStreams (Some (JArr l)) [] /\ Forall proper l /\ Forall2 category_said l info /\
  forall other, Forall2 category_said l other -> other = info.
Proof.
  assert (P : Forall proper (map category_json info)) by (apply Forall_forall; intros j I; apply in_map_iff in I; destruct I as (c & <- & _); apply category_proper).
  assert (S : Forall2 category_said (map category_json info) info) by (apply says_all, category_says).
  exists (map category_json info). split; [reflexivity|]. split; [exact P|]. split; [exact S|].
  intros other O. apply (forall2_one _ category_said (map category_json info)); auto.
  intros j x y I. apply one_category. rewrite Forall_forall in P. auto.
Qed.

(** Two registries whose help is the same as JSON have the same help. *)
Theorem levels_lossless info info' : to_out (help_for_levels 4 info) = to_out (help_for_levels 4 info') -> info = info'.
Proof.
  intros E. destruct (levels_json info) as (l & H & _ & _ & U), (levels_json info') as (l' & H' & _ & S' & _).
  rewrite H, H' in E. simpl in E. injection E as ->. symmetry. apply U, S'.
Qed.

(** At the other levels nothing goes to the standard output, and what is seen on the standard error is the text of every category with a
    name, in order. *)
Theorem levels_text colours level info : 1 <= level <= 3 -> (forall c, In c info -> plain_names (cd_markers c)) ->
  to_out (help_for_levels level info) = None /\
  exists o, all_of (map (write colours) (to_err (help_for_levels level info))) = Some o /\
    visible o = flat_map (level_text level) (filter (fun c => negb (String.eqb (cd_category c) "")) info).
Proof.
  intros [L1 L3] Hp.
  assert (G : forall f, (forall c, In c info -> exists o, write colours (f c) = Some o /\ visible o = level_text level c) ->
    exists o, all_of (map (write colours) (map f (printed info))) = Some o /\
      visible o = flat_map (level_text level) (filter (fun c => negb (String.eqb (cd_category c) "")) info)).
  { intros f Hf. change (filter _ info) with (printed info).
    assert (Hf' : forall c, In c (printed info) -> exists o, write colours (f c) = Some o /\ visible o = level_text level c)
      by (intros c I; apply Hf; apply printed_exact in I; tauto).
    clear Hf. generalize dependent (printed info). intros l Hl. induction l as [|c l IH]; [exists []; split; reflexivity|].
    destruct (Hl c (or_introl eq_refl)) as (o & E & V). destruct IH as (o' & E' & V'); [intros; apply Hl; right; assumption|].
    exists (o ++ o'). simpl. rewrite E. simpl. rewrite E'. split; [reflexivity|]. rewrite visible_app, V, V'. reflexivity. }
  destruct level as [|[|[|[|n]]]]; try lia; (split; [reflexivity|]); apply G; intros c I.
  - apply pretty_summary.
  - apply pretty_details, Hp, I.
  - apply pretty_details, Hp, I.
Qed.

(** Of a registry: every definition in force has an object in the JSON, in the object of its group, whatever the group; and with help
    asked for three times it has its text on the standard error if its group has a name. *)
Theorem levels_complete colours rd rf rg sh sf ds hs s d :
  is_order rd -> is_order rf -> is_order rg -> is_order sh -> is_order sf ->
  strict_weak (sg_less s) -> (forall d, in_force ds d -> fields_once d) ->
  (forall d n g, in_force ds d -> In (n, g) (d_fields (p_defn (d_payload d))) -> forall t, n <> String nl t) ->
  in_force ds d ->
  let info := by_category rd rf rg sh sf (register_all payload ds) hs s in
  let group := sg_group s (d_name d) (help_of hs d) in
  (exists l j ms k m, to_out (help_for_levels 4 info) = Some (JArr l) /\ In j l /\ member j "category" (JStr group) /\ member j "markers" (JArr ms) /\
     In k ms /\ marker_said k m /\ documents (help_of hs d) d m) /\
  (group <> "" -> exists o m before behind, all_of (map (write colours) (to_err (help_for_levels 3 info))) = Some o /\
     documents (help_of hs d) d m /\ visible o = before ++ marker_text true m ++ behind).
Proof.
  intros A B C D E W Once Plain F info group.
  destruct (help_complete rd rf rg sh sf A B C D E ds hs s W Once) as (Sound & Complete & _). fold info in Sound, Complete.
  destruct (Complete d F) as (c & m & Ic & Im & Ec & Doc).
  split.
  - exists (map category_json info), (category_json c), (map marker_json (cd_markers c)), (marker_json m), m. split; [reflexivity|].
    split; [apply in_map, Ic|]. split; [apply member_in; left; unfold group; rewrite Ec; reflexivity|].
    split; [apply member_in; right; left; reflexivity|]. split; [apply in_map, Im|]. split; [apply marker_says|exact Doc].
  - intros Ng.
    assert (Hp : forall c, In c info -> plain_names (cd_markers c)).
    { intros c' I' m' f' Im' If'. destruct (Sound c' m' I' Im') as (d' & F' & _ & Doc'). destruct (dc_fields _ _ _ Doc' f' If') as (g & Ig & _).
      apply (Plain d' (fd_name f') g F' Ig). }
    destruct (levels_text colours 3 info (conj (le_S _ _ (le_S _ _ (le_n 1))) (le_n 3)) Hp) as (_ & o & Eo & V).
    assert (Ip : In c (filter (fun c => negb (String.eqb (cd_category c) "")) info)).
    { apply filter_In. split; [exact Ic|]. rewrite Ec. apply negb_true_iff, String.eqb_neq. exact Ng. }
    apply in_split in Ip. destruct Ip as (l1 & l2 & Es). apply in_split in Im. destruct Im as (m1 & m2 & Em).
    exists o, m. eexists _, _. split; [exact Eo|]. split; [exact Doc|].
    rewrite V, Es, flat_map_app. cbn [flat_map]. unfold level_text at 2. cbn [Nat.eqb]. unfold details_text. rewrite Em, flat_map_app. cbn [flat_map].
    instantiate (1 := flat_map (marker_text true) m2 ++ flat_map (level_text 3) l2).
    instantiate (1 := flat_map (level_text 3) l1 ++ [nl] ++ chars (cd_category c) ++ [nl; nl] ++ flat_map (marker_text true) m1).
    rewrite <- !app_assoc. reflexivity.
Qed.

(** Asked for more often than four times, no help is printed at all. *)
Theorem levels_more_refuted : exists level info, 4 < level /\ info <> [] /\ help_for_levels level info = mkStreams None [].
Proof. exists 5, [mkCategoryDoc "CRD" []]. split; [lia|]. split; [discriminate|reflexivity]. Qed.

Print Assumptions levels_json.
Print Assumptions levels_lossless.
Print Assumptions levels_text.
Print Assumptions levels_complete.
Print Assumptions levels_more_refuted.

(** ** Concrete cases *)

Example levels_json_case : to_out (help_for_levels 4 [mkCategoryDoc "CRD" [column]; mkCategoryDoc "" [root]]) =
  Some (JArr [JObj [("category", JStr "CRD"); ("markers", JArr [JObj [("name", JStr "printcolumn"); ("target", JStr "type");
    ("summary", JStr "adds a column"); ("details", JStr "It is shown by get."); ("category", JStr "CRD"); ("deprecatedInFavorOf", JStr "column");
    ("fields", JArr [
      JObj [("name", JStr "JSONPath"); ("type", JStr "string"); ("optional", JBool false); ("summary", JStr "says where"); ("details", JStr "In dots.")];
      JObj [("name", JStr "priority"); ("type", JStr "int"); ("optional", JBool true); ("summary", JStr "says how much")]])]])];
    JObj [("category", JStr ""); ("markers", JArr [JObj [("name", JStr "root"); ("target", JStr "type"); ("summary", JStr "marks a root"); ("category", JStr "object")]])]]).
Proof. reflexivity. Qed.

Example levels_text_case : exists o, all_of (map (write true) (to_err (help_for_levels 1 [mkCategoryDoc "CRD" [root]; mkCategoryDoc "" [root]]))) = Some o /\
  visible o = unlines [""; "CRD"; ""; "+root  type  marks a root  "; ""].
Proof. eexists; split; reflexivity. Qed.

(** The hypotheses of [levels_complete] hold for a registry with a marker for types and for fields and one without help. *)
Example levels_complete_case :
  strict_weak (sg_less sort_by_category) /\ (forall d, in_force x_enum d -> fields_once d) /\
  (forall d n g, in_force x_enum d -> In (n, g) (d_fields (p_defn (d_payload d))) -> forall t, n <> String nl t) /\
  in_force x_enum (x_def 0 "kubebuilder:validation:Enum" DescribesType) /\
  sg_group sort_by_category "kubebuilder:validation:Enum" (help_of x_helps (x_def 0 "kubebuilder:validation:Enum" DescribesType)) = "CRD validation".
Proof.
  assert (F : forall d, in_force x_enum d <-> In d x_enum) by (intros d; apply in_force_once; cbn; repeat constructor; cbn; intuition discriminate).
  split; [apply both_strict_weak|]. split; [|split; [|split]].
  - intros d I. apply F in I. cbn in I. destruct I as [<-|[<-|[<-|[]]]]; repeat constructor; cbn; tauto.
  - intros d n g I J t. apply F in I. cbn in I. destruct I as [<-|[<-|[<-|[]]]]; cbn in J; destruct J as [J|[]]; injection J as <- _; discriminate.
  - apply F. left; reflexivity.
  - reflexivity.
Qed.
