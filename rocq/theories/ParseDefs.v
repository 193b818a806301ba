(** * Marker definitions: named arguments, types, and writing values. *)
From Coq Require Import List String Ascii Bool Arith NArith ZArith Lia.
From Verif Require Import GoLib GoLibFacts MapFacts ScanModel ParseModel ParseSpec ScanProofs ParseTerm ParseProofs ParseGrammar.
Import ListNotations.
Open Scope string_scope.
Open Scope list_scope.

Lemma declared_iff d name f : declared d name f <-> mget String.eqb (d_fields d) name = Some f.
Proof.
  unfold declared. induction (d_fields d) as [|[k g] l IH]; cbn.
  - split; [intros (x & y & E & _); destruct x; discriminate|discriminate].
  - destruct (String.eqb_spec name k) as [->|N].
    + split; [intros ([|[k' g'] x] & y & E & H); [injection E as -> _; reflexivity|injection E as -> -> _; exfalso; apply H; left; reflexivity]|intros [= ->]; exists [], l; split; [reflexivity|intros []]].
    + rewrite <- IH. split; intros (x & y & E & H).
      * destruct x as [|[k' g'] x]; [injection E as -> _ _; congruence|]. injection E as -> -> ->. exists x, y. split; [reflexivity|]. intros I. apply H. right. exact I.
      * exists ((k, g) :: x), y. rewrite E. split; [reflexivity|]. intros [I|I]; [cbn in I; congruence|exact (H I)].
Qed.

(** ** Fields that are set *)
Definition sets (l : list (string * field * value)) : list (string * value) := map (fun a => (f_name (snd (fst a)), snd a)) l.
Definition names (l : list (string * field * value)) : list string := map (fun a => fst (fst a)) l.
Definition set_all (out l : list (string * value)) : list (string * value) := fold_left (fun o kv => mset String.eqb o (fst kv) (snd kv)) l out.
Lemma set_all_snoc out l k v : set_all out (l ++ [(k, v)]) = mset String.eqb (set_all out l) k v.
Proof. unfold set_all. rewrite fold_left_app. reflexivity. Qed.
Lemma set_all_get l : forall k v, mget String.eqb (set_all [] l) k = Some v <-> last_value l k v.
Proof.
  induction l as [|[k0 v0] l IH] using rev_ind; intros k v.
  - split; [discriminate|intros (x & y & E & _); destruct x; discriminate].
  - rewrite set_all_snoc. destruct (String.eqb_spec k0 k) as [->|N].
    + rewrite (mget_mset_eq _ _ _ String.eqb_eq). split.
      * intros [= ->]. exists l, []. split; [reflexivity|intros []].
      * intros (x & y & E & H). destruct y as [|z y _] using rev_ind; [apply app_inj_tail in E as [_ [= ->]]; reflexivity|]. exfalso. rewrite app_comm_cons, app_assoc in E. apply app_inj_tail in E as [_ <-]. apply H. rewrite map_app. apply in_or_app. right. left. reflexivity.
    + rewrite (mget_mset_ne _ _ _ String.eqb_eq) by congruence. rewrite IH. split; intros (x & y & E & H).
      * subst l. exists x, (y ++ [(k0, v0)]). rewrite <- app_assoc. split; [reflexivity|]. rewrite map_app. intros I. apply in_app_or in I as [I|[I|[]]]; [exact (H I)|exact (N I)].
      * destruct y as [|z y _] using rev_ind; [apply app_inj_tail in E as [_ [= -> _]]; congruence|]. rewrite app_comm_cons, app_assoc in E. apply app_inj_tail in E as [-> <-]. exists x, y. split; [reflexivity|]. intros I. apply H. rewrite map_app. apply in_or_app. auto.
Qed.
Lemma mset_keys_iff (l : list (string * value)) k v k' : In k' (map fst (mset String.eqb l k v)) <-> k' = k \/ In k' (map fst l).
Proof.
  induction l as [|[a b] l IH]; cbn; [intuition congruence|]. destruct (String.eqb_spec k a) as [->|N]; cbn; [intuition congruence|]. rewrite IH. intuition congruence.
Qed.

Section Defs.
  Variable float_ok : string -> bool.

  Lemma parse_arg_calm a raw st w s v b t : denotes float_ok a s v b -> calm t -> (b = true -> ~ begins space_char t) -> before w s -> at_ raw st (w ++ s ++ t) ->
    exists st' w' t', parse_arg float_ok a raw st = Ok (v, st') /\ t = (w' ++ t')%string /\ spaces w' /\ at_ raw st' t'.
  Proof.
    intros D C Hb Bf A. destruct (proj1 (grammar float_ok) a s v b D (fuel a (rest st)) false raw st w t (fun X : false = true => ltac:(discriminate X)) C Hb Bf A) as [E|R]; [exfalso; exact (parse_arg_fuel float_ok a raw st E)|exact R].
  Qed.
  Lemma name_first name : name_text name -> exists a r, name = String a r /\ letter_char a /\ all_chars word_char r.
  Proof. intros [(a & r & -> & Ha) A]. apply all_cons in A as [_ A]. eauto. Qed.
  Lemma scan_name raw st w name w1 t : at_ raw st (w ++ name ++ w1 ++ "=" ++ t) -> spaces w -> name_text name -> spaces w1 ->
    exists st1 st2, scan' st = Ok (TIdent, st1) /\ txt st1 = name /\ expect_chr "=" st1 = Ok st2 /\ at_ raw st2 t.
  Proof.
    intros A W N W1. destruct (name_first _ N) as (a & r & -> & Ha & Hr).
    assert (Nw : ~ begins word_char (w1 ++ "=" ++ t)).
    { apply not_begins_app; [|simpl append; rewrite begins_cons; intros X; apply is_ident_iff in X; discriminate]. destruct w1 as [|c w1]; [apply begins_nil|]. rewrite begins_cons. apply stop_not_word, stop_intro. left. apply all_cons in W1. tauto. }
    destruct (at_scan raw st w (String a r) _ TIdent A W) as (st1 & E1 & A1 & T1); [simpl append; rewrite begins_cons; apply letter_not_space, Ha|apply token_word; assumption|].
    destruct (at_expect raw st1 w1 "=" t A1 W1 eq_refl (not_sp "=" eq_refl)) as (st2 & E2 & A2). exists st1, st2. auto.
  Qed.
  Lemma calm_of_args w3 rest0 : spaces w3 -> calm (w3 ++ "," ++ rest0).
  Proof. intros W. apply calm_spaces; [exact W|apply calm_comma]. Qed.

  Lemma named_arguments d s l : arguments float_ok d s l -> forall n raw st seen out, at_ raw st s ->
    named_args float_ok n d raw st seen out = NoFuel \/
    exists st', named_args float_ok n d raw st seen out = Ok (rev (names l) ++ seen, set_all out (sets l), st') /\ at_ raw st' "".
  Proof.
    induction 1 as [w name w1 w2 s f v b W N W1 Dc Bf D|w name w1 w2 s w3 f v b rest0 l W N W1 Dc Bf D Af Ar IH]; intros n raw st seen out A; (destruct n as [|n]; [left; reflexivity|]); cbn [named_args].
    - destruct (scan_name raw st w name w1 _ A W N W1) as (s1 & s2 & E1 & T1 & E2 & A2). rewrite E1. cbn [bind]. rewrite E2, T1. cbn [bind]. rewrite (proj1 (declared_iff d name f) Dc).
      destruct (parse_arg_calm (f_arg f) raw s2 w2 s v b "" D calm_nil (fun _ => begins_nil _) Bf) as (s3 & w' & t' & E3 & Et & _ & A3); [rewrite str_app_nil_r; exact A2|]. rewrite E3. cbn [bind].
      assert (t' = "") by (destruct w'; [symmetry; exact Et|discriminate]). subst t'. right. exists s3. unfold peek. destruct A3 as (B1 & B2 & B3). rewrite B2. split; [reflexivity|split; auto].
    - destruct (scan_name raw st w name w1 _ A W N W1) as (s1 & s2 & E1 & T1 & E2 & A2). rewrite E1. cbn [bind]. rewrite E2, T1. cbn [bind]. rewrite (proj1 (declared_iff d name f) Dc).
      destruct (parse_arg_calm (f_arg f) raw s2 w2 s v b (w3 ++ "," ++ rest0) D (calm_of_args w3 rest0 (proj1 Af)) (after_space b w3 "," rest0 Af (not_sp "," eq_refl)) Bf A2) as (s3 & w' & t' & E3 & Et & W' & A3). rewrite E3. cbn [bind].
      destruct (land_char "," raw s3 w' t' b w3 rest0 eq_refl Af Et W' A3) as (w'' & -> & W''). unfold peek. pose proof A3 as (_ & R3 & _). rewrite R3.
      assert (Ne : exists c r, (w'' ++ String "," rest0)%string = String c r) by (destruct w''; simpl; eauto). destruct Ne as (c & r & ->).
      destruct (at_expect raw s3 w'' "," rest0 A3 W'' eq_refl (not_sp "," eq_refl)) as (s4 & E4 & A4). rewrite E4. cbn [bind].
      destruct (IH n raw s4 (name :: seen) (mset String.eqb out (f_name f) v) A4) as [E|(s5 & E & A5)]; rewrite E; [left; reflexivity|]. right. exists s5. split; [|exact A5]. cbn [names map fst rev sets snd set_all fold_left]. rewrite <- app_assoc. reflexivity.
  Qed.
  Lemma arguments_nonempty d s l : arguments float_ok d s l -> exists c r, s = String c r.
  Proof. intros [w name w1 w2 s0 f v b W N _ _ _ _|w name w1 w2 s0 w3 f v b rest0 l0 W N _ _ _ _ _ _]; destruct (name_first _ N) as (a & r & -> & _); destruct w; simpl; eauto. Qed.
  Definition complete (d : definition) (given : list string) : Prop := forall name f, In (name, f) (d_fields d) -> f_optional f = false -> In name given.
  Lemma complete_iff d seen : forallb (fun kf => f_optional (snd kf) || mem_str (fst kf) seen) (d_fields d) = true <-> complete d seen.
  Proof.
    rewrite forallb_forall. unfold complete. split.
    - intros H name f I O. specialize (H _ I). cbn in H. rewrite O in H. apply mem_str_spec. exact H.
    - intros H [name f] I. cbn. destruct (f_optional f) eqn:O; [reflexivity|]. apply mem_str_spec. exact (H _ _ I O).
  Qed.
  Lemma not_anonymous_fields d name f : anonymous_field d = false -> declared d name f -> no_fields d = false.
  Proof. intros _ (x & y & E & _). unfold no_fields. rewrite E. destruct x; reflexivity. Qed.
  Lemma arguments_declared d s l : arguments float_ok d s l -> exists name f, declared d name f.
  Proof. intros [w name w1 w2 s0 f v b W N _ D _ _|w name w1 w2 s0 w3 f v b rest0 l0 W N _ D _ _ _ _]; eauto. Qed.
  Lemma parse_named d s l : anonymous_field d = false -> arguments float_ok d s l ->
    parse_fields float_ok d s = if d_strict d && negb (forallb (fun kf => f_optional (snd kf) || mem_str (fst kf) (rev (names l) ++ [])) (d_fields d)) then Err else Ok (set_all [] (sets l)).
  Proof.
    intros An Ar. pose proof (parse_fields_fuel float_ok d s) as NF. unfold parse_fields in *. cbv zeta in *. rewrite An in *. cbn [andb] in *. destruct (arguments_declared _ _ _ Ar) as (nm & f & Dc). rewrite (not_anonymous_fields d nm f An Dc) in *. cbn [negb andb] in *.
    destruct (arguments_nonempty _ _ _ Ar) as (c & r & Es). assert (P : match peek (new_scanner s) with Some _ => true | None => false end = true) by (rewrite Es; reflexivity). rewrite P in *.
    destruct (named_arguments d s l Ar (S (String.length s)) s (new_scanner s) [] [] (at_start s)) as [E|(st' & E & A')]; rewrite E in *; [exfalso; apply NF; reflexivity|]. cbn [bind].
    destruct (at_end_scan s st' "" A' spaces_nil) as (s2 & E2). rewrite E2. reflexivity.
  Qed.
  Lemma parse_named_ok d s l : anonymous_field d = false -> arguments float_ok d s l -> (d_strict d = true -> complete d (names l)) ->
    exists out, parse_fields float_ok d s = Ok out /\ forall k v, mget String.eqb out k = Some v <-> last_value (sets l) k v.
  Proof.
    intros An Ar H. exists (set_all [] (sets l)). split; [|exact (set_all_get (sets l))]. rewrite (parse_named d s l An Ar). destruct (d_strict d) eqn:S0; [|reflexivity]. cbn [andb].
    assert (X : forallb (fun kf => f_optional (snd kf) || mem_str (fst kf) (rev (names l) ++ [])) (d_fields d) = true) by (apply complete_iff; intros name f I O; rewrite app_nil_r; apply -> in_rev; exact (H eq_refl _ _ I O)). rewrite X. reflexivity.
  Qed.
  Lemma parse_named_missing d s l : anonymous_field d = false -> arguments float_ok d s l -> d_strict d = true -> ~ complete d (names l) -> parse_fields float_ok d s = Err.
  Proof.
    intros An Ar S0 H. rewrite (parse_named d s l An Ar), S0. cbn [andb]. destruct (forallb _ _) eqn:X; [|reflexivity]. exfalso. apply H. apply complete_iff in X. intros name f I O. specialize (X name f I O). rewrite app_nil_r in X. apply in_rev. exact X.
  Qed.
  Lemma named_unknown d s : unknown_argument float_ok d s -> forall n raw st seen out, at_ raw st s -> named_args float_ok n d raw st seen out = NoFuel \/ named_args float_ok n d raw st seen out = Err.
  Proof.
    induction 1 as [w name w1 rest0 W N W1 Un|w name w1 w2 s w3 f v b rest0 W N W1 Dc Bf D Af Ar IH]; intros n raw st seen out A; (destruct n as [|n]; [left; reflexivity|]); cbn [named_args].
    - destruct (scan_name raw st w name w1 _ A W N W1) as (s1 & s2 & E1 & T1 & E2 & A2). rewrite E1. cbn [bind]. rewrite E2, T1. cbn [bind]. destruct (mget _ _ _) as [f|] eqn:G; [exfalso; exact (Un f (proj2 (declared_iff d name f) G))|]. right. reflexivity.
    - destruct (scan_name raw st w name w1 _ A W N W1) as (s1 & s2 & E1 & T1 & E2 & A2). rewrite E1. cbn [bind]. rewrite E2, T1. cbn [bind]. rewrite (proj1 (declared_iff d name f) Dc).
      destruct (parse_arg_calm (f_arg f) raw s2 w2 s v b (w3 ++ "," ++ rest0) D (calm_of_args w3 rest0 (proj1 Af)) (after_space b w3 "," rest0 Af (not_sp "," eq_refl)) Bf A2) as (s3 & w' & t' & E3 & Et & W' & A3). rewrite E3. cbn [bind].
      destruct (land_char "," raw s3 w' t' b w3 rest0 eq_refl Af Et W' A3) as (w'' & -> & W''). unfold peek. pose proof A3 as (_ & R3 & _). rewrite R3.
      assert (Ne : exists c r, (w'' ++ String "," rest0)%string = String c r) by (destruct w''; simpl; eauto). destruct Ne as (c & r & ->).
      destruct (at_expect raw s3 w'' "," rest0 A3 W'' eq_refl (not_sp "," eq_refl)) as (s4 & E4 & A4). rewrite E4. cbn [bind]. exact (IH n raw s4 _ _ A4).
  Qed.
  Lemma parse_named_unknown d s : anonymous_field d = false -> no_fields d = false -> unknown_argument float_ok d s -> parse_fields float_ok d s = Err.
  Proof.
    intros An Nf U. pose proof (parse_fields_fuel float_ok d s) as NF. unfold parse_fields in *. cbv zeta in *. rewrite An, Nf in *. cbn [andb negb] in *.
    assert (Es : exists c r, s = String c r) by (destruct U as [w name w1 rest0 W N W1 Un|w name w1 w2 s0 w3 f v b rest0 W N W1 Dc Bf D Af Ar]; destruct (name_first _ N) as (a & r & -> & _); destruct w; simpl; eauto). destruct Es as (c & r & Es).
    assert (P : match peek (new_scanner s) with Some _ => true | None => false end = true) by (rewrite Es; reflexivity). rewrite P in *.
    destruct (named_unknown d s U (S (String.length s)) s (new_scanner s) [] [] (at_start s)) as [E|E]; rewrite E in *; [exfalso; apply NF; reflexivity|reflexivity].
  Qed.

  (** ** Markers with one argument that has no name *)
  Lemma parse_anonymous d f w s v b : d_fields d = [("", f)] -> denotes float_ok (f_arg f) s v b -> before w s -> parse_fields float_ok d (w ++ s) = Ok [(f_name f, v)].
  Proof.
    intros E D Bf. unfold parse_fields, anonymous_field. cbv zeta. rewrite E. change (String.eqb "" "") with true. cbn [andb].
    destruct (first_denotes float_ok (f_arg f) s v b "" D) as (c & r & Ec & _). rewrite str_app_nil_r in Ec. assert (P : match peek (new_scanner (w ++ s)) with Some _ => true | None => false end = true) by (unfold peek, new_scanner; cbn [rest]; rewrite Ec; destruct w; reflexivity). rewrite P.
    destruct (parse_arg_calm (f_arg f) (w ++ s) (new_scanner (w ++ s)) w s v b "" D calm_nil (fun _ => begins_nil _) Bf) as (s3 & w' & t' & E3 & Et & _ & A3); [rewrite str_app_nil_r; apply at_start|]. rewrite E3. cbn [bind].
    assert (t' = "") by (destruct w'; [symmetry; exact Et|discriminate]). subst t'. destruct (at_end_scan _ s3 "" A3 spaces_nil) as (s2 & E2). rewrite E2. cbn [bind forallb fst snd mem_str]. cbn. rewrite orb_true_r, andb_false_r. reflexivity.
  Qed.
  (** A text has one value *)
  Lemma denotes_unique a s v b v' b' : denotes float_ok a s v b -> denotes float_ok a s v' b' -> v = v'.
  Proof.
    intros D D'. set (d := mkDefinition [("", mkField "" a false)] true). pose proof (parse_anonymous d (mkField "" a false) "" s v b eq_refl D (before_none s)) as E. rewrite (parse_anonymous d (mkField "" a false) "" s v' b' eq_refl D' (before_none s)) in E. congruence.
  Qed.
  Lemma parse_empty d : parse_fields float_ok d "" = if d_strict d && negb (forallb (fun kf => f_optional (snd kf) || mem_str (fst kf) []) (d_fields d)) then Err else Ok [].
  Proof. unfold parse_fields. cbv zeta. unfold peek, new_scanner. cbn [rest]. rewrite !andb_false_r. reflexivity. Qed.

  (** ** Types of what was parsed *)
  Lemma wrap32_range z : (- 2 ^ 31 <= wrap32 z < 2 ^ 31)%Z.
  Proof. unfold wrap32. pose proof (Z.mod_pos_bound (z + 2 ^ 31) (2 ^ 32)). lia. Qed.
  Lemma atoi_range s z : atoi s = Some z -> in_int64 z.
  Proof.
    assert (I : forall y x, int64 y = Some x -> in_int64 x) by (unfold int64, in_int64; intros y x; destruct ((- 2 ^ 63 <=? y)%Z && (y <? 2 ^ 63)%Z) eqn:E; [|discriminate]; intros [= <-]; apply andb_true_iff in E as [E1 E2]; apply Z.leb_le in E1; apply Z.ltb_lt in E2; lia).
    unfold atoi. destruct s as [|c r]; [discriminate|]. destruct (Ascii.eqb c "-"); [destruct (atoi_abs r); [apply I|discriminate]|]. destruct (Ascii.eqb c "+"); [destruct (atoi_abs r); [apply I|discriminate]|]. destruct (atoi_abs _); [apply I|discriminate].
  Qed.
  Lemma typed_pairs_set a (m : list (string * value)) k v : NoDup (map fst m) /\ Forall (fun kv => typed float_ok a (snd kv)) m -> typed float_ok a v ->
    NoDup (map fst (mset String.eqb m k v)) /\ Forall (fun kv => typed float_ok a (snd kv)) (mset String.eqb m k v).
  Proof.
    intros [N F] T. split; [exact (mset_nodup _ _ _ String.eqb_eq m k v N)|]. clear N. induction m as [|[x y] m IH]; cbn; [constructor; [exact T|constructor]|]. inversion F; subst. destruct (String.eqb k x); constructor; auto.
  Qed.
  Lemma parse_typed n :
    (forall a i raw s v s', parse float_ok n a i raw s = Ok (v, s') -> typed float_ok a v) /\
    (forall b raw s l s', parse_items float_ok n b raw s = Ok (l, s') -> Forall (typed float_ok b) l) /\
    (forall b raw s l s', parse_legacy float_ok n b raw s = Ok (l, s') -> Forall (typed float_ok b) l) /\
    (forall b raw s m m' s', parse_pairs float_ok n b raw s m = Ok (m', s') -> NoDup (map fst m) /\ Forall (fun kv => typed float_ok b (snd kv)) m -> NoDup (map fst m') /\ Forall (fun kv => typed float_ok b (snd kv)) m').
  Proof.
    induction n as [|n (IH1 & IH2 & IH3 & IH4)]; [repeat split; discriminate|]. split; [|split; [|split]].
    - intros a i raw s v s' H. destruct a; cbn [parse] in H; try discriminate.
      + apply bind_ok in H as ([neg s1] & H1 & H). apply bind_ok in H as ([t s2] & H2 & H). destruct t; try discriminate. apply bind_ok in H as (z & Hz & [= <- _]). apply of_option_ok in Hz. apply atoi_range in Hz. destruct is32; constructor; [apply wrap32_range|exact Hz].
      + apply bind_ok in H as ([neg s1] & H1 & H). apply bind_ok in H as ([t s2] & H2 & H). destruct t; try discriminate; cbv zeta in H; destruct (float_ok _) eqn:E; try discriminate; injection H as <- _; constructor; exact E.
      + apply bind_ok in H as ([x s1] & H1 & [= <- _]). constructor.
      + apply bind_ok in H as ([t s1] & H1 & H). destruct t; try discriminate. destruct (String.eqb _ _); [injection H as <- _; constructor|]. destruct (String.eqb _ _); [injection H as <- _; constructor|discriminate].
      + apply bind_ok in H as (g & Hg & H). destruct (guess_makeable g); [|discriminate]. apply IH1 in H. apply typed_any with g; [|exact H]. apply guess_type_shape in Hg as [_ Hg]. intros ->. discriminate.
      + destruct (peek_no_space s) as [h s1]. destruct (match h with Some c => _ | None => _ end).
        * apply bind_ok in H as ([t s2] & H1 & H). apply bind_ok in H as ([l s3] & H2 & H). apply bind_ok in H as (s4 & H3 & [= <- _]). constructor. exact (IH2 _ _ _ _ _ H2).
        * apply bind_ok in H as ([l s2] & H1 & [= <- _]). constructor. exact (IH3 _ _ _ _ _ H1).
      + apply bind_ok in H as (s1 & H1 & H). apply bind_ok in H as ([m s2] & H2 & H). apply bind_ok in H as (s3 & H3 & [= <- _]). apply IH4 in H2 as [X Y]; [constructor; assumption|]. split; constructor.
      + apply bind_ok in H as (s1 & H1 & [= <- _]). constructor.
      + apply bind_ok in H as ([x s1] & H1 & [= <- _]). constructor. exact (IH1 _ _ _ _ _ _ H1).
    - intros b raw s l s' H. cbn [parse_items] in H. destruct (peek_no_space s) as [h s1]. destruct (at_end h _); [injection H as <- _; constructor|].
      apply bind_ok in H as ([v s2] & H1 & H). apply IH1 in H1. destruct (peek_no_space s2) as [h2 s3]. destruct (match h2 with Some c => _ | None => _ end); [injection H as <- _; repeat constructor; exact H1|].
      apply bind_ok in H as (s4 & H2 & H). apply bind_ok in H as ([l' s5] & H3 & [= <- _]). constructor; [exact H1|exact (IH2 _ _ _ _ _ H3)].
    - intros b raw s l s' H. cbn [parse_legacy] in H. destruct (peek_no_space s) as [h s1]. destruct (at_end h _); [injection H as <- _; constructor|].
      apply bind_ok in H as ([v s2] & H1 & H). apply IH1 in H1. destruct (peek_no_space s2) as [h2 s3]. destruct (at_end h2 _); [injection H as <- _; repeat constructor; exact H1|].
      apply bind_ok in H as ([t s4] & H2 & H). destruct (match h2 with Some c => _ | None => _ end); [|discriminate]. apply bind_ok in H as ([l' s5] & H3 & [= <- _]). constructor; [exact H1|exact (IH3 _ _ _ _ _ H3)].
    - intros b raw s m m' s' H I. cbn [parse_pairs] in H. destruct (peek_no_space s) as [h s1]. destruct (at_end h _); [injection H as <- _; exact I|].
      apply bind_ok in H as ([k s2] & H1 & H). apply bind_ok in H as (s3 & H2 & H). apply bind_ok in H as ([v s4] & H3 & H). apply IH1 in H3. pose proof (typed_pairs_set b m k v I H3) as I'.
      cbv zeta in H. destruct (peek_no_space s4) as [h2 s5]. destruct (match h2 with Some c => _ | None => _ end); [injection H as <- _; exact I'|]. apply bind_ok in H as (s6 & H4 & H). exact (IH4 _ _ _ _ _ _ H I').
  Qed.

  Definition good (d : definition) (seen : list string) (out : list (string * value)) : Prop :=
    (forall name, In name seen -> exists f, declared d name f /\ In (f_name f) (map fst out)) /\
    (forall k v, mget String.eqb out k = Some v -> exists name f, declared d name f /\ k = f_name f /\ typed float_ok (f_arg f) v).
  Lemma named_good n d raw : forall s seen out seen' out' s', named_args float_ok n d raw s seen out = Ok (seen', out', s') -> good d seen out -> good d seen' out'.
  Proof.
    induction n as [|n IH]; intros s seen out seen' out' s' H G; [discriminate|]. cbn [named_args] in H. apply bind_ok in H as ([t s1] & H1 & H). destruct t; try discriminate. apply bind_ok in H as (s2 & H2 & H). destruct (mget _ _ _) as [f|] eqn:Gf; [|discriminate].
    apply bind_ok in H as ([v s3] & H3 & H). cbv zeta in H. apply (proj1 (parse_typed _)) in H3. pose proof (proj2 (declared_iff d (txt s1) f) Gf) as Dc.
    assert (G' : good d (txt s1 :: seen) (mset String.eqb out (f_name f) v)).
    { destruct G as [G1 G2]. split.
      - intros name [<-|I]; [exists f; split; [exact Dc|apply mset_keys_iff; auto]|]. destruct (G1 name I) as (g & Dg & Ig). exists g. split; [exact Dg|apply mset_keys_iff; auto].
      - intros k v0 E. destruct (String.eqb_spec k (f_name f)) as [->|Ne]; [rewrite (mget_mset_eq _ _ _ String.eqb_eq) in E; injection E as <-; eauto|]. rewrite (mget_mset_ne _ _ _ String.eqb_eq) in E by congruence. exact (G2 k v0 E). }
    destruct (peek s3); [apply bind_ok in H as (s4 & H4 & H); exact (IH _ _ _ _ _ _ H G')|]. injection H as <- <- _. exact G'.
  Qed.
  Lemma parse_sound d s out : parse_fields float_ok d s = Ok out ->
    (forall k v, mget String.eqb out k = Some v -> exists name f, declared d name f /\ k = f_name f /\ typed float_ok (f_arg f) v) /\
    (d_strict d = true -> forall name f, declared d name f -> f_optional f = false -> exists v, mget String.eqb out (f_name f) = Some v).
  Proof.
    unfold parse_fields. cbv zeta. rewrite bind_ok. intros ([[seen out0] s'] & H1 & H). apply bind_ok in H as ([t s2] & H2 & H). destruct t; try discriminate.
    assert (G : good d seen out0).
    { destruct (anonymous_field d && _) eqn:B.
      - apply andb_true_iff in B as [B _]. unfold anonymous_field in B. destruct (d_fields d) as [|[k f] [|]] eqn:E; try discriminate. apply String.eqb_eq in B as ->. apply bind_ok in H1 as ([v s3] & H3 & [= <- <- _]). apply (proj1 (parse_typed _)) in H3.
        assert (Dc : declared d "" f) by (exists [], []; rewrite E; split; [reflexivity|intros []]). split; [intros name [<-|[]]; exists f; split; [exact Dc|left; reflexivity]|]. intros k v0. cbn. destruct (String.eqb_spec k (f_name f)) as [->|]; [intros [= <-]; eauto|discriminate].
      - assert (G0 : good d [] []) by (split; [intros name []|discriminate]). destruct (negb (no_fields d) && _); [exact (named_good _ _ _ _ _ _ _ _ _ H1 G0)|]. injection H1 as <- <- _. exact G0. }
    destruct G as [G1 G2]. destruct (d_strict d && _) eqn:B; [discriminate|]. injection H as <-. split; [exact G2|]. intros S0 name f Dc O. rewrite S0 in B. cbn [andb] in B. apply negb_false_iff in B. apply complete_iff in B.
    assert (I : In (name, f) (d_fields d)) by (destruct Dc as (x & y & -> & _); apply in_or_app; right; left; reflexivity). destruct (G1 name (B name f I O)) as (g & Dg & Ig). apply declared_iff in Dc, Dg. rewrite Dc in Dg. injection Dg as <-.
    destruct (mget String.eqb out0 (f_name f)) as [v|] eqn:E; [eauto|]. exfalso. apply (mget_none _ _ _ String.eqb_eq) in E. exact (E Ig).
  Qed.
End Defs.
