(** * C53: the schemas of the known types accept what is written for their values *)

From Coq Require Import List String Ascii Bool ZArith QArith Lia.
From Verif Require Import GoLib GoLibFacts SchemaModel RefModel ErrorsModel ValidSpec MarkModel MarkSpec StructModel FlattenModel NeedModel StructSpec MarshalSpec MarshalProps.
From Verif Require MarshalProofs MarkProps.
From Verif Require IndexModel.
From Verif Require Import KnownModel KnownSpec.
Import ListNotations.
Open Scope nat_scope.
Open Scope string_scope.
Open Scope list_scope.

(** ** The pattern of quantities *)

(** The language of an expression that does not look at its surroundings. *)
Inductive star (P : string -> Prop) : string -> Prop :=
| star_none : star P ""
| star_more a b : P a -> star P b -> star P (a ++ b).
Fixpoint lang (r : regex) (s : string) : Prop :=
  match r with
  | REmpty => s = ""
  | RClass ranges => exists c, s = String c "" /\ existsb (in_range c) ranges = true
  | RCat a b => exists x y, s = (x ++ y)%string /\ lang a x /\ lang b y
  | RAlt a b => lang a s \/ lang b s
  | ROpt a => s = "" \/ lang a s
  | RStar a => star (lang a) s
  | RPlus a => exists x y, s = (x ++ y)%string /\ lang a x /\ star (lang a) y
  | RBegin | REnd => False
  end.
Fixpoint plain (r : regex) : bool :=
  match r with
  | RBegin | REnd => false
  | RCat a b | RAlt a b => plain a && plain b
  | ROpt a | RStar a | RPlus a => plain a
  | _ => true
  end.

Lemma many_star (P : string -> string -> string -> Prop) Q : (forall pre s post, P pre s post <-> Q s) ->
  forall pre s post, many P pre s post <-> star Q s.
Proof.
  intros H pre s post. split.
  - induction 1 as [|pre a b post A _ IH]; constructor; auto. now apply H in A.
  - intros S. revert pre post. induction S as [|a b A S IH]; intros pre post; constructor; auto. now apply H.
Qed.

Lemma plain_lang r : plain r = true -> forall pre s post, matches r pre s post <-> lang r s.
Proof.
  induction r as [|l|a IHa b IHb|a IHa b IHb|a IH|a IH|a IH| |]; cbn [plain matches lang]; intros P pre s post; try easy.
  - apply andb_true_iff in P as [Pa Pb]. split; intros (x & y & E & A & B); exists x, y.
    + apply IHa in A; auto. apply IHb in B; auto.
    + split; auto. split; [now apply IHa|now apply IHb].
  - apply andb_true_iff in P as [Pa Pb]. rewrite IHa, IHb; tauto.
  - now rewrite IH.
  - apply many_star. auto.
  - split; intros (x & y & E & A & B); exists x, y; (split; [exact E|]); split.
    + now apply IH in A.
    + revert B. now apply many_star, IH.
    + now apply IH.
    + revert B. now apply many_star, IH.
Qed.

Lemma lang_char c s : lang (char c) s <-> s = String c "".
Proof.
  unfold char. cbn. split.
  - intros (d & -> & H). rewrite orb_false_r in H. unfold in_range in H. cbn [fst snd] in H. apply andb_true_iff in H as [H1 H2].
    apply Nat.leb_le in H1, H2. f_equal. rewrite <- (ascii_nat_embedding d), <- (ascii_nat_embedding c). f_equal. lia.
  - intros ->. exists c. split; auto. rewrite orb_false_r. unfold in_range. cbn. now rewrite Nat.leb_refl.
Qed.

Lemma lang_class l s : lang (RClass l) s <-> exists x, In x l /\ lang (RClass [x]) s.
Proof.
  cbn. split.
  - intros (c & -> & H). apply existsb_exists in H. destruct H as (x & I & H). exists x. split; auto. exists c. split; auto. now rewrite H.
  - intros (x & I & c & -> & H). exists c. split; auto. apply existsb_exists. exists x. split; auto. now rewrite orb_false_r in H.
Qed.

Lemma lang_chars l s : lang (RClass (map (fun c => (c, c)) l)) s <-> exists c, In c l /\ s = String c "".
Proof.
  rewrite lang_class. split.
  - intros (x & I & H). apply in_map_iff in I. destruct I as (c & <- & I). exists c. split; auto. now apply (lang_char c).
  - intros (c & I & ->). exists (c, c). split; [now apply (in_map (fun c => (c, c)))|]. now apply (lang_char c).
Qed.

Lemma lang_skip a s : lang (RCat REmpty a) s <-> lang a s.
Proof. cbn [lang]. split; [intros (x & y & -> & -> & H); exact H|]. intros H. now exists "", s. Qed.

Lemma lang_cat a b s : lang (RCat a b) s <-> exists x y, s = (x ++ y)%string /\ lang a x /\ lang b y.
Proof. reflexivity. Qed.
Lemma lang_alt a b s : lang (RAlt a b) s <-> lang a s \/ lang b s.
Proof. reflexivity. Qed.
Lemma lang_opt a s : lang (ROpt a) s <-> s = "" \/ lang a s.
Proof. reflexivity. Qed.

Notation digit_re := (RClass [("0", "9")%char]).
Lemma lang_digit s : lang digit_re s <-> exists c, s = String c "" /\ digit c = true.
Proof. cbn. split; intros (c & -> & H); exists c; split; auto. now rewrite orb_false_r in H. rewrite orb_false_r. exact H. Qed.

Lemma star_digits s : star (lang digit_re) s <-> s = "" \/ digits s.
Proof.
  split.
  - induction 1 as [|a b A S IH]; auto. right. apply lang_digit in A. destruct A as (c & -> & D). cbn.
    destruct IH as [->|IH]; now constructor.
  - intros [->|D]; [constructor|]. induction D as [c D|c s D _ IH].
    + change (String c "") with (String c "" ++ "")%string. constructor; [|constructor]. apply lang_digit. eauto.
    + change (String c s) with (String c "" ++ s)%string. constructor; auto. apply lang_digit. eauto.
Qed.

Lemma plus_digits s : lang (RPlus digit_re) s <-> digits s.
Proof.
  split.
  - intros (x & y & -> & A & B). apply lang_digit in A. destruct A as (c & -> & D). apply star_digits in B. cbn.
    destruct B as [->|B]; now constructor.
  - intros D. destruct D as [c D|c s D H].
    + exists (String c ""), "". split; auto. split; [apply lang_digit; eauto|constructor].
    + exists (String c ""), s. split; auto. split; [apply lang_digit; eauto|]. apply star_digits. auto.
Qed.

Notation sign_re := (RAlt (RCat REmpty (RClass [("+", "+")%char])) (RCat REmpty (RClass [("-", "-")%char]))).
Notation number_re := (RAlt
  (RCat REmpty (RCat (RCat REmpty (RPlus digit_re)) (ROpt (RCat (RCat REmpty (RClass [(".", ".")%char])) (RStar digit_re)))))
  (RCat REmpty (RCat (RCat REmpty (RClass [(".", ".")%char])) (RPlus digit_re)))).

Lemma lang_number s : lang number_re s <-> number s.
Proof.
  rewrite lang_alt, !lang_skip, !lang_cat. split.
  - intros [(x & y & -> & A & B)|(x & y & -> & A & B)].
    + apply -> lang_skip in A. apply plus_digits in A. apply lang_opt in B. destruct B as [->|B]; [rewrite str_app_nil_r; now constructor|].
      apply lang_cat in B. destruct B as (u & v & -> & U & W). apply -> lang_skip in U. apply (lang_char ".") in U. subst u.
      apply star_digits in W. destruct W as [->|W]; [now apply n_point|now apply n_both].
    + apply -> lang_skip in A. apply (lang_char ".") in A. subst x. apply plus_digits in B. now apply n_fraction.
  - assert (P : forall x y, digits x -> y = "" \/ digits y -> lang (RCat (RCat REmpty (RPlus digit_re)) (ROpt (RCat (RCat REmpty (RClass [(".", ".")%char])) (RStar digit_re)))) (x ++ "." ++ y)%string).
    { intros x y X Y. apply lang_cat. exists x, ("." ++ y)%string. split; auto. split; [now apply lang_skip, plus_digits|].
      right. apply lang_cat. exists ".", y. split; auto. split; [apply lang_skip, (lang_char "."); reflexivity|now apply star_digits]. }
    intros [a A|a b A B|a A|b B].
    + left. exists a, "". rewrite str_app_nil_r. split; auto. split; [now apply lang_skip, plus_digits|]. now left.
    + left. apply P; auto.
    + left. apply (P a ""); auto.
    + right. exists ".", b. split; auto. split; [apply lang_skip, (lang_char "."); reflexivity|now apply plus_digits].
Qed.

Lemma lang_signed s : (exists x y, s = (x ++ y)%string /\ lang (ROpt sign_re) x /\ lang number_re y) <-> signed_number s.
Proof.
  split.
  - intros (x & y & -> & A & B). apply lang_number in B. apply lang_opt in A. destruct A as [->|A]; [now constructor|].
    apply lang_alt in A. destruct A as [A|A]; apply -> lang_skip in A.
    + apply (lang_char "+") in A. subst x. now apply s_plus.
    + apply (lang_char "-") in A. subst x. now apply s_minus.
  - intros [a A|a A|a A]; apply lang_number in A.
    + exists "", a. repeat split; auto. now left.
    + exists "+", a. repeat split; auto. right. left. apply lang_skip. now apply (lang_char "+").
    + exists "-", a. repeat split; auto. right. right. apply lang_skip. now apply (lang_char "-").
Qed.

Notation class s := (RClass (map (fun c => (c, c)) (list_ascii_of_string s))).
Notation suffix_re := (RAlt (RCat REmpty (RCat (RCat REmpty (class "KMGTPE")) (class "i")))
  (RAlt (RCat REmpty (class "numkMGTPE"))
     (RCat REmpty (RCat (RCat (RCat REmpty (class "eE")) (ROpt sign_re)) number_re)))).

Lemma lang_suffix s : lang (ROpt suffix_re) s <-> suffix s.
Proof.
  rewrite lang_opt, !lang_alt. split.
  - intros [->|[A|[A|A]]].
    + apply decimal_si. cbn. tauto.
    + apply -> lang_skip in A. apply lang_cat in A. destruct A as (x & y & -> & A & B). apply -> lang_skip in A. apply lang_chars in A. apply lang_chars in B.
      destruct A as (c & A & ->), B as (d & B & ->). apply binary_si. cbn in A, B. destruct B as [<-|[]]. cbn.
      repeat (destruct A as [<-|A]; [tauto|]). destruct A.
    + apply -> lang_skip in A. apply lang_chars in A. destruct A as (c & A & ->). apply decimal_si. cbn in A. cbn.
      repeat (destruct A as [<-|A]; [tauto|]). destruct A.
    + apply -> lang_skip in A. apply lang_cat in A. destruct A as (x & y & -> & A & B). apply lang_cat in A. destruct A as (u & v & -> & U & W).
      apply -> lang_skip in U. apply lang_chars in U. destruct U as (c & U & ->). assert (S : signed_number (v ++ y)) by (apply lang_signed; eauto).
      rewrite str_app_assoc. cbn in U. destruct U as [<-|[<-|[]]]; now constructor.
  - assert (X : forall c a, In c (list_ascii_of_string "eE") -> signed_number a -> lang (RCat REmpty (RCat (RCat (RCat REmpty (class "eE")) (ROpt sign_re)) number_re)) (String c a)).
    { intros c a C A. apply lang_signed in A. destruct A as (x & y & -> & A & B). apply lang_skip, lang_cat. exists (String c x), y. split; auto. split; auto.
      apply lang_cat. exists (String c ""), x. split; auto. split; auto. apply lang_skip, lang_chars. eauto. }
    intros [b B|b B|a A|a A].
    + right. left. apply lang_skip, lang_cat. cbn in B.
      assert (Y : forall c, In c (list_ascii_of_string "KMGTPE") -> exists x y, String c "i" = (x ++ y)%string /\ lang (RCat REmpty (class "KMGTPE")) x /\ lang (class "i") y).
      { intros c C. exists (String c ""), "i". split; auto. split; [apply lang_skip, lang_chars; eauto|apply lang_chars]. exists "i"%char. split; [now left|reflexivity]. }
      repeat (destruct B as [<-|B]; [apply Y; cbn; tauto|]). destruct B.
    + assert (Y : forall c, In c (list_ascii_of_string "numkMGTPE") -> lang (RCat REmpty (class "numkMGTPE")) (String c "")).
      { intros c C. apply lang_skip, lang_chars. eauto. }
      cbn in B. repeat (destruct B as [<-|B]; [try (now left); right; right; left; apply Y; cbn; tauto|]). destruct B.
    + right. right. right. apply (X "e"%char); auto. cbn. tauto.
    + right. right. right. apply (X "E"%char); auto. cbn. tauto.
Qed.

Lemma anchored A B C : plain A = true -> plain B = true -> plain C = true -> forall pre s post,
  matches (RCat (RCat (RCat (RCat (RCat REmpty RBegin) A) B) C) REnd) pre s post <->
  pre = "" /\ post = "" /\ exists x y z, s = ((x ++ y) ++ z)%string /\ lang A x /\ lang B y /\ lang C z.
Proof.
  intros PA PB PC pre s post. cbn [matches]. split.
  - intros (x1 & x2 & -> & (y1 & y2 & -> & (z1 & z2 & -> & (u1 & u2 & -> & (v1 & v2 & -> & -> & -> & H) & X) & Y) & Z) & -> & ->).
    rewrite str_app_nil_r in H. subst pre. split; auto. split; auto. exists u2, z2, y2. cbn [append]. rewrite str_app_nil_r. split; auto.
    apply plain_lang in X, Y, Z; auto.
  - intros (-> & -> & x & y & z & -> & X & Y & Z).
    exists ((x ++ y) ++ z)%string, "". rewrite str_app_nil_r. split; [reflexivity|]. split; [|split; reflexivity].
    exists (x ++ y)%string, z. split; [reflexivity|]. split; [|now apply plain_lang].
    exists x, y. split; [reflexivity|]. split; [|now apply plain_lang].
    exists "", x. split; [reflexivity|]. split; [exists "", ""; repeat split|now apply plain_lang].
Qed.

(** The pattern is found in a text exactly if it is a quantity. *)
Theorem quantity_pattern_exact s : found quantity_pattern s <-> quantity_text s.
Proof.
  assert (P : parse_regex quantity_pattern = Some (RCat (RCat (RCat (RCat (RCat REmpty RBegin) (ROpt sign_re)) number_re) (ROpt suffix_re)) REnd)) by (vm_compute; reflexivity).
  unfold found. rewrite P. clear P. split.
  - intros (r & pre & x & post & R & -> & M). injection R as <-. apply anchored in M; try reflexivity.
    destruct M as (-> & -> & u & v & w & -> & A & B & C). rewrite str_app_nil_r. cbn [append]. constructor; [apply lang_signed; eauto|now apply lang_suffix].
  - intros [a b A B]. apply lang_signed in A. destruct A as (x & y & -> & A1 & A2). apply lang_suffix in B.
    eexists _, "", ((x ++ y) ++ b)%string, "". split; [reflexivity|]. split; [cbn [append]; now rewrite str_app_nil_r|].
    apply anchored; try reflexivity. split; auto. split; auto. exists x, y, b. auto.
Qed.
Print Assumptions quantity_pattern_exact.

(** ** What the schemas accept *)

(** The schemas that are set, by package and name. *)
Definition table (embedded : bool) (p name : string) : option schema :=
  let choose l := mget String.eqb l name in
  if String.eqb p "k8s.io/apimachinery/pkg/apis/meta/v1" then
    choose [("ObjectMeta", if embedded then object_meta else of_type "object"); ("Time", date_time); ("MicroTime", date_time); ("Duration", of_type "string");
            ("Fields", set_addl (of_type "object") (Some (true, None)))]
  else if String.eqb p "k8s.io/apimachinery/pkg/api/resource" then choose [("Quantity", quantity)]
  else if String.eqb p "k8s.io/apimachinery/pkg/runtime" then choose [("RawExtension", preserving (of_type "object"))]
  else if String.eqb p "k8s.io/apimachinery/pkg/apis/meta/v1/unstructured" then choose [("Unstructured", of_type "object")]
  else if String.eqb p "k8s.io/apimachinery/pkg/util/intstr" then choose [("IntOrString", int_or_string)]
  else if String.eqb p "k8s.io/apiextensions-apiserver/pkg/apis/apiextensions/v1beta1" then choose [("JSON", preserving schema0)]
  else if String.eqb p "k8s.io/apiextensions-apiserver/pkg/apis/apiextensions/v1" then choose [("JSON", preserving schema0)]
  else None.
Lemma preset_table embedded pkg name : mget String.eqb (known_presets embedded pkg) name = table embedded (non_vendor_path pkg) name.
Proof.
  unfold known_presets. generalize (non_vendor_path pkg). intros p.
  set (R := if embedded then mset String.eqb known_packages "k8s.io/apimachinery/pkg/apis/meta/v1"
      (IndexModel.mkOverride _ [("ObjectMeta", of_type "object"); ("Time", date_time); ("MicroTime", date_time); ("Duration", of_type "string");
        ("Fields", set_addl (of_type "object") (Some (true, None)))] true [("ObjectMeta", object_meta)]) else known_packages).
  assert (E : add_known_types embedded [] = R) by (destruct embedded; reflexivity).
  rewrite E. subst R. unfold table. clear E.
  destruct embedded; unfold known_packages; cbn [mget mset String.eqb Ascii.eqb Bool.eqb];
    repeat match goal with |- context [String.eqb p ?k] => destruct (String.eqb p k); [reflexivity|] end; reflexivity.
Qed.
Lemma one_preset k v name (P : schema -> Prop) : (exists s, mget String.eqb [(k, v)] name = Some s /\ P s) <-> name = k /\ P v.
Proof.
  cbn. destruct (String.eqb_spec name k) as [->|N]; split; [intros (s & [= <-] & H); auto|intros [_ H]; eauto|intros (s & [=] & _)|tauto].
Qed.
Lemma next_preset k v x l name (P : schema -> Prop) : ~ In k (map fst (x :: l)) ->
  (exists s, mget String.eqb ((k, v) :: x :: l) name = Some s /\ P s) <-> (name = k /\ P v) \/ (exists s, mget String.eqb (x :: l) name = Some s /\ P s).
Proof.
  intros N. cbn [mget]. destruct (String.eqb_spec name k) as [->|M].
  - split; [intros (s & [= <-] & H); auto|]. intros [[_ H]|(s & E & _)]; [eauto|]. exfalso. apply N. exact (in_map fst _ _ (mget_in _ _ _ String.eqb_eq (x :: l) k s E)).
  - split; [auto|]. intros [[E _]|H]; [congruence|exact H].
Qed.

(** The schema set for a type accepts a value. *)
Definition accepts (embedded : bool) (O : oracles) (pkg name : string) (j : json) : Prop :=
  exists s, mget String.eqb (known_presets embedded pkg) name = Some s /\ valid O s j = true.

Definition is_date (O : oracles) (j : json) : Prop := exists s, j = JStr s /\ o_format O "date-time" j = true.

Section Exact.
  Variable O : oracles.
  Hypothesis regexes : forall s, o_pattern O quantity_pattern s = true <-> found quantity_pattern s.

  Lemma valid_string j : valid O (of_type "string") j = true <-> exists s, j = JStr s.
  Proof. destruct j; cbn; split; intros H; try discriminate; eauto; destruct H as [? [=]]. Qed.
  Lemma valid_object j : valid O (of_type "object") j = true <-> exists l, j = JObj l.
  Proof. destruct j; cbn; split; intros H; try discriminate; eauto; destruct H as [? [=]]. Qed.
  Lemma valid_preserving s j : valid O (preserving s) j = valid O s j.
  Proof. destruct s. reflexivity. Qed.
  Lemma valid_any j : valid O schema0 j = true.
  Proof. now destruct j. Qed.
  Lemma valid_date j : valid O date_time j = true <-> is_date O j.
  Proof.
    unfold is_date. destruct j as [|b|q|s|l|l]; cbn; try (split; [discriminate|intros (s & [=] & _)]).
    destruct (o_format O "date-time" (JStr s)); cbn; split; try discriminate; eauto. now intros (? & _ & H).
  Qed.
  Lemma valid_int_or_string j : valid O int_or_string j = true <-> (exists q, j = JNum q /\ is_integer q = true) \/ exists s, j = JStr s.
  Proof.
    destruct j as [|b|q|s|l|l]; cbn -[is_integer]; try (split; [discriminate|intros [(q & [=] & _)|[s [=]]]]).
    - destruct (is_integer q) eqn:E; cbn -[is_integer]; split; try discriminate; auto; [left; eauto|]. intros [(q' & [= <-] & H)|[s [=]]]. congruence.
    - split; auto. right. eauto.
  Qed.
  Lemma valid_quantity j : valid O quantity j = true <-> (exists q, j = JNum q /\ is_integer q = true) \/ exists s, j = JStr s /\ quantity_text s.
  Proof.
    destruct j as [|b|q|s|l|l]; try (cbn; split; [discriminate|intros [(q & [=] & _)|(s & [=] & _)]]).
    - cbn -[is_integer]. destruct (is_integer q) eqn:E; cbn -[is_integer]; split; try discriminate; auto; [left; eauto|]. intros [(q' & [= <-] & H)|(s & [=] & _)]. congruence.
    - assert (E : valid O quantity (JStr s) = o_pattern O quantity_pattern s).
      { unfold quantity. generalize (eq_refl : String.eqb quantity_pattern "" = false). generalize quantity_pattern. intros p P. cbn. rewrite P. cbn. now destruct (o_pattern O p s). }
      rewrite E, regexes, quantity_pattern_exact. split; [right; eauto|]. intros [(q & [=] & _)|(s' & [= <-] & H)]; auto.
  Qed.
  Lemma forallb_strings {A} (f : A -> json) l : forallb (fun x => valid O (of_type "string") (f x)) l = true <-> forall x, In x l -> exists s, f x = JStr s.
  Proof. rewrite forallb_forall. split; intros H x X; apply valid_string; auto. Qed.
  Lemma valid_strings j : valid O (set_addl (of_type "object") (Some (false, Some (of_type "string")))) j = true <-> strings j.
  Proof.
    unfold strings. destruct j as [|b|q|s|l|l]; try (cbn; split; [discriminate|intros (s' & [=] & _)]).
    assert (E : valid O (set_addl (of_type "object") (Some (false, Some (of_type "string")))) (JObj l) = forallb (fun kv => valid O (of_type "string") (snd kv)) l).
    { generalize (of_type "string"). intros x. cbn. now rewrite !andb_true_r. }
    rewrite E, forallb_strings. split.
    - intros H. exists l. split; auto. intros k v I. exact (H (k, v) I).
    - intros (l' & [= <-] & H) [k v] I. eauto.
  Qed.
  Lemma valid_array j : valid O (set_items (of_type "array") (Some (Some (of_type "string"), []))) j = true <->
    exists f, j = JArr f /\ forall x, In x f -> exists s, x = JStr s.
  Proof.
    destruct j as [|b|q|s|l|l]; try (cbn; split; [discriminate|intros (s' & [=] & _)]).
    assert (E : valid O (set_items (of_type "array") (Some (Some (of_type "string"), []))) (JArr l) = forallb (fun x => valid O (of_type "string") x) l).
    { generalize (of_type "string"). intros x. cbn. now rewrite !andb_true_r. }
    rewrite E, (forallb_strings (fun x => x)). split; [eauto|]. intros (f & [= <-] & H). exact H.
  Qed.
  Lemma valid_metadata j : valid O object_meta j = true <-> exists l, j = JObj l /\ metadata l.
  Proof.
    destruct j as [|b|q|s|l|l]; try (cbn; split; [discriminate|intros (s' & [=] & _)]).
    assert (E : valid O object_meta (JObj l) = forallb (fun p => match mget String.eqb l (fst p) with Some x => valid O (snd p) x | None => true end)
      [("name", of_type "string"); ("namespace", of_type "string");
       ("annotations", set_addl (of_type "object") (Some (false, Some (of_type "string"))));
       ("labels", set_addl (of_type "object") (Some (false, Some (of_type "string"))));
       ("finalizers", set_items (of_type "array") (Some (Some (of_type "string"), [])))]).
    { unfold object_meta. match goal with |- context [set_props _ ?x] => generalize x end. intros ps. cbn. now rewrite !andb_true_r. }
    rewrite E, forallb_forall. split.
    - intros H. exists l. split; auto. split; [|split].
      + intros k v K V. apply valid_string. specialize (H (k, of_type "string")). cbn [fst snd] in H. rewrite V in H. apply H. cbn in K |- *. destruct K as [<-|[<-|[]]]; auto.
      + intros k v K V. apply valid_strings. specialize (H (k, set_addl (of_type "object") (Some (false, Some (of_type "string"))))). cbn [fst snd] in H. rewrite V in H. apply H. cbn in K |- *. destruct K as [<-|[<-|[]]]; auto.
      + intros v V. apply valid_array. specialize (H ("finalizers", set_items (of_type "array") (Some (Some (of_type "string"), [])))). cbn [fst snd] in H. rewrite V in H. apply H. cbn. tauto.
    - intros (l' & [= <-] & H1 & H2 & H3) x I. cbn [In] in I.
      destruct I as [<-|[<-|[<-|[<-|[<-|[]]]]]]; cbn [fst snd]; match goal with |- match ?m with _ => _ end = _ => destruct m as [v|] eqn:V end; auto.
      + apply valid_string, (H1 "name"); cbn; auto.
      + apply valid_string, (H1 "namespace"); cbn; auto.
      + apply valid_strings, (H2 "annotations"); cbn; auto.
      + apply valid_strings, (H2 "labels"); cbn; auto.
      + now apply valid_array, H3.
  Qed.

  Lemma valid_fields j : valid O (set_addl (of_type "object") (Some (true, None))) j = true <-> exists l, j = JObj l.
  Proof.
    destruct j as [|b|q|s|l|l]; try (cbn; split; [discriminate|intros [s' [=]]]).
    split; [eauto|]. intros _. cbn. rewrite !andb_true_r. apply forallb_forall. intros x _. cbn. now rewrite ?orb_true_r.
  Qed.
  Lemma valid_meta (embedded : bool) j : valid O (if embedded then object_meta else of_type "object") j = true <-> exists l, j = JObj l /\ (embedded = true -> metadata l).
  Proof.
    destruct embedded; [rewrite valid_metadata|rewrite valid_object].
    - split; intros (l & E & H); exists l; split; auto.
    - split; [intros (l & E); exists l; split; auto; discriminate|]. intros (l & E & _). eauto.
  Qed.

  Ltac plain_names :=
    repeat match goal with
    | |- context [String ?a ?b = String ?c ?d] =>
        let H := fresh in
        first [assert (H : String a b = String c d <-> False) by (split; [discriminate|tauto])
              |assert (H : String a b = String c d <-> True) by (split; [trivial|reflexivity])]; rewrite H; clear H
    end.
  Notation mv1 := "k8s.io/apimachinery/pkg/apis/meta/v1".
  (** What is accepted for each of the known types, wherever their package is vendored. *)
  Theorem known_exact embedded pkg name j : accepts embedded O pkg name j <->
    (non_vendor_path pkg = mv1 /\
       ((name = "Time" \/ name = "MicroTime") /\ is_date O j \/
        name = "Duration" /\ (exists s, j = JStr s) \/
        name = "Fields" /\ (exists l, j = JObj l) \/
        name = "ObjectMeta" /\ (exists l, j = JObj l /\ (embedded = true -> metadata l)))) \/
    (non_vendor_path pkg = "k8s.io/apimachinery/pkg/api/resource" /\ name = "Quantity" /\
       ((exists q, j = JNum q /\ is_integer q = true) \/ exists s, j = JStr s /\ quantity_text s)) \/
    (non_vendor_path pkg = "k8s.io/apimachinery/pkg/util/intstr" /\ name = "IntOrString" /\
       ((exists q, j = JNum q /\ is_integer q = true) \/ exists s, j = JStr s)) \/
    (non_vendor_path pkg = "k8s.io/apimachinery/pkg/runtime" /\ name = "RawExtension" /\ exists l, j = JObj l) \/
    (non_vendor_path pkg = "k8s.io/apimachinery/pkg/apis/meta/v1/unstructured" /\ name = "Unstructured" /\ exists l, j = JObj l) \/
    ((non_vendor_path pkg = "k8s.io/apiextensions-apiserver/pkg/apis/apiextensions/v1beta1" \/
      non_vendor_path pkg = "k8s.io/apiextensions-apiserver/pkg/apis/apiextensions/v1") /\ name = "JSON").
  Proof.
    unfold accepts. rewrite preset_table. unfold table. generalize (non_vendor_path pkg). intros p.
    destruct (String.eqb_spec p mv1) as [->|N1].
    { rewrite !next_preset, one_preset by (cbn; intuition discriminate). plain_names. rewrite !valid_date, valid_string, valid_fields, valid_meta. tauto. }
    destruct (String.eqb_spec p "k8s.io/apimachinery/pkg/api/resource") as [->|N2].
    { rewrite one_preset. plain_names. rewrite valid_quantity. tauto. }
    destruct (String.eqb_spec p "k8s.io/apimachinery/pkg/runtime") as [->|N3].
    { rewrite one_preset. plain_names. rewrite valid_preserving, valid_object. tauto. }
    destruct (String.eqb_spec p "k8s.io/apimachinery/pkg/apis/meta/v1/unstructured") as [->|N4].
    { rewrite one_preset. plain_names. rewrite valid_object. tauto. }
    destruct (String.eqb_spec p "k8s.io/apimachinery/pkg/util/intstr") as [->|N5].
    { rewrite one_preset. plain_names. rewrite valid_int_or_string. tauto. }
    pose proof (valid_any j).
    destruct (String.eqb_spec p "k8s.io/apiextensions-apiserver/pkg/apis/apiextensions/v1beta1") as [->|N6].
    { rewrite one_preset. plain_names. rewrite valid_preserving. tauto. }
    destruct (String.eqb_spec p "k8s.io/apiextensions-apiserver/pkg/apis/apiextensions/v1") as [->|N7].
    { rewrite one_preset. plain_names. rewrite valid_preserving. tauto. }
    split; [intros (s & [=] & _)|tauto].
  Qed.
End Exact.
Print Assumptions known_exact.

(** Whatever is written for values of the known types (other than null) is accepted. *)
Theorem known_accepted embedded O (date : string -> Prop) pkg name j :
  (forall s, o_pattern O quantity_pattern s = true <-> found quantity_pattern s) -> (forall s, date s -> o_format O "date-time" (JStr s) = true) ->
  known_json date (non_vendor_path pkg) name j -> accepts embedded O pkg name j.
Proof.
  intros R D K. apply known_exact; [exact R|]. pose proof MarshalProofs.integer_Z as I.
  remember (non_vendor_path pkg) as p eqn:E. clear E.
  destruct K as [s H|s H|s|l|l H|s H|l|l|z|s|j|j].
  - left. split; auto. left. split; auto. exists s. auto.
  - left. split; auto. left. split; auto. exists s. auto.
  - left. split; auto. right. left. eauto.
  - left. split; auto. right. right. left. eauto.
  - left. split; auto. right. right. right. split; auto. exists l. auto.
  - right. left. split; auto. split; auto. right. eauto.
  - right. right. right. left. eauto.
  - do 4 right. left. eauto.
  - right. right. left. split; auto. split; auto. left. eauto.
  - right. right. left. split; auto. split; auto. right. eauto.
  - do 5 right. auto.
  - do 5 right. auto.
Qed.
Print Assumptions known_accepted.

(** So the schema of a type with fields of known types accepts what encoding/json writes for its values: C38 with the schemas that are set. *)
Theorem known_encoded embedded order sorted allow_dangerous ignore_unexported imports pkg_markers types base64 (O : string -> oracles) (date : string -> Prop) :
  let presets := known_presets embedded in
  let schema_of := schema_of order sorted allow_dangerous ignore_unexported imports pkg_markers types presets in
  is_order order -> sorts sorted -> sensible O base64 schema_of ->
  (forall p s, o_pattern (O p) quantity_pattern s = true <-> found quantity_pattern s) -> (forall p s, date s -> o_format (O p) "date-time" (JStr s) = true) ->
  (forall id ti, uncovered types presets id = Some ti -> ti_json ti = false ->
    proper_type ignore_unexported (pkg_markers (fst id)) ti /\
    exists s reqs, generated order sorted allow_dangerous ignore_unexported imports pkg_markers id ti = Done s reqs []) ->
  forall id j, encodes (uncovered types presets) (fun id j => known_json date (non_vendor_path (fst id)) (snd id) j) base64 id j ->
    exists s, schema_of id = Some s /\ valid (O (fst id)) s j = true.
Proof.
  intros presets so Ho Hs Sens R D Good. apply encoded_accepted; auto.
  intros id j K. exact (known_accepted embedded (O (fst id)) date (fst id) (snd id) j (R (fst id)) (D (fst id)) K).
Qed.
Print Assumptions known_encoded.

(** GenerateEmbeddedObjectMeta changes the schema of ObjectMeta and no other. *)
Theorem embedded_only_meta pkg name : mget String.eqb (known_presets true pkg) name <> mget String.eqb (known_presets false pkg) name <->
  non_vendor_path pkg = "k8s.io/apimachinery/pkg/apis/meta/v1" /\ name = "ObjectMeta".
Proof.
  rewrite !preset_table. unfold table. destruct (String.eqb_spec (non_vendor_path pkg) "k8s.io/apimachinery/pkg/apis/meta/v1") as [E|N]; [|tauto].
  cbn [mget]. destruct (String.eqb_spec name "ObjectMeta") as [->|N]; [|tauto]. split; auto. intros _. discriminate.
Qed.
Print Assumptions embedded_only_meta.

(** AddKnownTypes leaves the overrides of other packages alone. *)
Theorem known_types_added embedded overrides p : ~ In p (map fst known_packages) ->
  mget String.eqb (add_known_types embedded overrides) p = mget String.eqb overrides p.
Proof.
  intros N. assert (F : forall l o, ~ In p (map fst l) -> mget String.eqb (fold_left (fun o x => mset String.eqb o (fst x) (snd x)) l o) p = mget (V := IndexModel.override schema) String.eqb o p).
  { induction l as [|x l IH]; intros o M; cbn [fold_left]; auto. rewrite IH; [|intros K; apply M; now right].
    apply (mget_mset_other _ _ _ String.eqb_eq). intros <-. apply M. now left. }
  unfold add_known_types. destruct embedded; [|now apply F]. rewrite !F; auto. intros K. apply N. cbn in K |- *. tauto.
Qed.
Print Assumptions known_types_added.

(** ** Cases *)
Definition one_oracles : oracles := mkOracles (fun _ _ => true) (fun _ => 0%Z) (fun _ s => String.eqb s "1Gi") (fun _ _ => true) (fun _ _ => true) (fun _ _ => true) (fun _ => true) (fun _ _ => true).
Definition in_str (l : string) (c : ascii) : bool := existsb (Ascii.eqb c) (list_ascii_of_string l).
Definition all_in (l s : string) : bool := forallb (in_str l) (list_ascii_of_string s).
Lemma all_in_app l a b : all_in l (a ++ b) = all_in l a && all_in l b.
Proof. unfold all_in. induction a as [|c a IH]; cbn; [reflexivity|]. now rewrite IH, andb_assoc. Qed.
Lemma all_in_more l l' s : all_in l' l = true -> all_in l s = true -> all_in l' s = true.
Proof.
  unfold all_in. rewrite !forallb_forall. intros H K c C. specialize (K c C). apply existsb_exists in K. destruct K as (d & D & E).
  apply Ascii.eqb_eq in E. subst d. auto.
Qed.
Lemma digits_in s : digits s -> all_in "0123456789" s = true.
Proof.
  assert (D : forall c, digit c = true -> in_str "0123456789" c = true).
  { intros [[] [] [] [] [] [] [] []]; intros H; first [discriminate H|reflexivity]. }
  unfold all_in. induction 1 as [c H|c s H _ IH]; cbn [list_ascii_of_string forallb]; now rewrite D.
Qed.
Lemma signed_in s : signed_number s -> all_in "+-.0123456789" s = true.
Proof.
  assert (D : forall x, digits x -> all_in "+-.0123456789" x = true) by (intros x X; apply (all_in_more "0123456789"); [reflexivity|now apply digits_in]).
  assert (N : forall x, number x -> all_in "+-.0123456789" x = true).
  { intros x [a A|a b A B|a A|b B]; rewrite ?all_in_app; repeat (apply andb_true_intro; split); first [now apply D|reflexivity]. }
  intros [a A|a A|a A]; rewrite ?all_in_app; repeat (apply andb_true_intro; split); first [now apply N|reflexivity].
Qed.
Lemma quantity_in s : quantity_text s -> all_in "+-.0123456789KMGTPEinumke" s = true.
Proof.
  assert (N : forall x, signed_number x -> all_in "+-.0123456789KMGTPEinumke" x = true) by (intros x X; apply (all_in_more "+-.0123456789"); [reflexivity|now apply signed_in]).
  intros [a b A B]. rewrite all_in_app, (N a) by assumption. destruct B as [b B|b B|b B|b B].
  - cbn in B. repeat (destruct B as [<-|B]; [reflexivity|]). destruct B.
  - cbn in B. repeat (destruct B as [<-|B]; [reflexivity|]). destruct B.
  - rewrite all_in_app, (N b) by assumption. reflexivity.
  - rewrite all_in_app, (N b) by assumption. reflexivity.
Qed.
Example quantities : quantity_text "1Gi" /\ quantity_text "-.5e+3" /\ ~ quantity_text "1 Gi" /\ ~ quantity_text "1gi".
Proof.
  assert (D : forall c, digit c = true -> digits (String c "")) by now constructor.
  split; [|split; [|split]].
  - change "1Gi" with ("1" ++ "Gi")%string. constructor; [apply s_none, n_whole, D; reflexivity|]. apply binary_si. cbn. tauto.
  - change "-.5e+3" with ("-.5" ++ "e+3")%string. constructor; [apply (s_minus ".5"), (n_fraction "5"), D; reflexivity|]. apply (exponent_e "+3"), (s_plus "3"), n_whole, D. reflexivity.
  - intros H. apply quantity_in in H. discriminate H.
  - intros H. apply quantity_in in H. discriminate H.
Qed.
(** A type with a field for a quantity and one for a time, in a package that vendors apimachinery. *)
Definition vendored (p : string) : string := ("example.com/m/vendor/" ++ p)%string.
Example vendored_case : accepts false any_oracles (vendored "k8s.io/apimachinery/pkg/apis/meta/v1") "Time" (JStr "2024-01-01T00:00:00Z") /\
  ~ accepts false any_oracles (vendored "k8s.io/apimachinery/pkg/apis/meta/v1") "Time" (JNum 1) /\
  ~ accepts true any_oracles (vendored "k8s.io/apimachinery/pkg/apis/meta/v1") "ObjectMeta" (JObj [("labels", JObj [("a", JNum 1)])]) /\
  accepts false any_oracles (vendored "k8s.io/apimachinery/pkg/apis/meta/v1") "ObjectMeta" (JObj [("labels", JObj [("a", JNum 1)])]).
Proof.
  assert (A : forall e name j s, mget String.eqb (known_presets e (vendored "k8s.io/apimachinery/pkg/apis/meta/v1")) name = Some s ->
    (accepts e any_oracles (vendored "k8s.io/apimachinery/pkg/apis/meta/v1") name j <-> valid any_oracles s j = true)).
  { intros e name j s E. unfold accepts. rewrite E. split; [intros (s' & [= <-] & H); exact H|eauto]. }
  repeat split.
  - eapply A; vm_compute; reflexivity.
  - intros H. eapply A in H; [|vm_compute; reflexivity]. discriminate H.
  - intros H. eapply A in H; [|vm_compute; reflexivity]. discriminate H.
  - eapply A; vm_compute; reflexivity.
Qed.

(** ** Where it fails *)

(** The zero Time and MicroTime and an empty RawExtension are written as null, which no schema of a known type but JSON accepts. *)
Theorem known_null_refuted embedded O pkg name : accepts embedded O pkg name JNull -> name = "JSON".
Proof.
  intros (s & E & V). rewrite preset_table in E. unfold table in E. cbn [mget] in E.
  repeat match type of E with (if ?b then _ else _) = _ => let H := fresh in destruct b eqn:H end; try discriminate E;
    try (injection E as <-; destruct embedded; discriminate V); now apply String.eqb_eq.
Qed.
Print Assumptions known_null_refuted.
