(** * Every value can be written, and definitions say what the struct says. *)
From Coq Require Import List String Ascii Bool Arith NArith ZArith Lia.
From Verif Require Import GoLib GoLibFacts MapFacts ScanModel ParseModel ParseSpec ScanProofs ParseTerm ParseProofs ParseGrammar ParseDefs.
Import ListNotations.
Open Scope string_scope.
Open Scope list_scope.

(** ** Numbers *)
Definition digit (z : Z) : ascii := ascii_of_nat (48 + Z.to_nat z).
Lemma digit_is z : (0 <= z < 10)%Z -> digit_char (digit z) /\ Z.of_nat (nat_of_ascii (digit z)) = (48 + z)%Z.
Proof. intros H. unfold digit_char, digit. rewrite nat_ascii_embedding by lia. lia. Qed.
Fixpoint show (n : nat) (z : Z) : string :=
  match n with
  | O => ""
  | S n' => if (z <? 10)%Z then String (digit z) "" else (show n' (z / 10) ++ String (digit (z mod 10)) "")%string
  end.
Lemma show_natural n : forall z, (0 <= z < 2 ^ Z.of_nat n)%Z -> n <> 0 -> natural (show n z) z.
Proof.
  induction n as [|n IH]; intros z R N0; [congruence|]. cbn [show]. destruct (Z.ltb_spec z 10).
  - destruct (digit_is z ltac:(lia)) as [D V]. split.
    + replace z with (10 * 0 + (Z.of_nat (nat_of_ascii (digit z)) - 48))%Z at 2 by lia. exact (digits_more "" 0 (digit z) digits_none D).
    + destruct (Z.eq_dec z 0) as [->|Nz]; [left; reflexivity|]. right. exists (digit z), "". split; [reflexivity|]. split; [exact D|lia].
  - destruct n as [|n]; [cbn in R; lia|]. destruct (digit_is (z mod 10) ltac:(apply Z.mod_pos_bound; lia)) as [D V].
    destruct (IH (z / 10)%Z) as [Dg B]; [|congruence|].
    { split; [apply Z.div_pos; lia|]. apply Z.div_lt_upper_bound; [lia|]. rewrite Nat2Z.inj_succ, Z.pow_succ_r in R by lia. lia. }
    assert (Pq : (z / 10 > 0)%Z) by (pose proof (Z.div_str_pos z 10 ltac:(lia)); lia). split.
    + replace z with (10 * (z / 10) + (Z.of_nat (nat_of_ascii (digit (z mod 10))) - 48))%Z at 3 by (pose proof (Z.div_mod z 10 ltac:(lia)); lia). exact (digits_more _ _ _ Dg D).
    + right. destruct B as [E|(a & y & E & Hd)].
      * exfalso. rewrite E in Dg. inversion Dg as [|ds z0 a Ds Da E1 E2]; subst. destruct ds as [|c [|]]; cbn in E1; try discriminate. injection E1 as ->. inversion Ds as [E3|ds0 z1 a0 D0 D1 E3]; [subst; cbn in E2; lia|destruct ds0; discriminate].
      * rewrite E. exists a, (y ++ String (digit (z mod 10)) "")%string. split; [reflexivity|exact Hd].
Qed.
Definition show_nat (z : Z) : string := show (S (Pos.size_nat (Z.to_pos z))) z.
Lemma size_bound p : (Z.pos p < 2 ^ Z.of_nat (Pos.size_nat p))%Z.
Proof. induction p as [p IH|p IH|]; [| |reflexivity]; cbn [Pos.size_nat]; rewrite Nat2Z.inj_succ, Z.pow_succ_r by lia; lia. Qed.
Lemma show_nat_natural z : (0 <= z)%Z -> natural (show_nat z) z.
Proof.
  intros H. apply show_natural; [|discriminate]. split; [exact H|]. rewrite Nat2Z.inj_succ, Z.pow_succ_r by lia. destruct z as [|p|p]; [reflexivity| |lia]. cbn [Z.to_pos]. pose proof (size_bound p). lia.
Qed.
Definition show_int (z : Z) : string := if (z <? 0)%Z then ("-" ++ show_nat (- z))%string else show_nat z.
Lemma show_int_integer z : integer (show_int z) z.
Proof.
  unfold show_int. destruct (Z.ltb_spec z 0); [right|left; apply show_nat_natural; lia]. exists (show_nat (- z)), (- z)%Z. split; [reflexivity|]. split; [apply show_nat_natural; lia|lia].
Qed.

(** ** Strings: printable ASCII only *)
Definition hex_digit (n : nat) : ascii := ascii_of_nat (if Nat.ltb n 10 then 48 + n else 87 + n).
Definition quote_one (a : ascii) (s : string) : string :=
  let n := nat_of_ascii a in
  if Nat.eqb n 34 || Nat.eqb n 92 then String backslash_char (String a s)
  else if Nat.leb 32 n && Nat.ltb n 127 then String a s
  else String backslash_char (String "x" (String (hex_digit (n / 16)) (String (hex_digit (n mod 16)) s))).
Fixpoint quote_body (s : string) : string := match s with EmptyString => "" | String a s' => quote_one a (quote_body s') end.
Definition quote (s : string) : string := (String quote_char (quote_body s) ++ String quote_char "")%string.
Lemma hex_digit_is n : n < 16 -> hex_value (hex_digit n) n.
Proof. intros H. unfold hex_value, hex_digit. destruct (Nat.ltb_spec n 10); rewrite nat_ascii_embedding by lia; lia. Qed.
Lemma quote_body_quoted s : quoted (quote_body s) s.
Proof.
  induction s as [|a s IH]; cbn [quote_body]; [constructor|]. unfold quote_one. set (n := nat_of_ascii a). pose proof (nat_ascii_bounded a) as Bd. fold n in Bd.
  destruct (Nat.eqb_spec n 34) as [E34|N34]; cbn [orb]; [apply (quoted_escape a a); [|exact IH]; fold n; rewrite E34; cbn; tauto|].
  destruct (Nat.eqb_spec n 92) as [E92|N92]; cbn [orb]; [apply (quoted_escape a a); [|exact IH]; fold n; rewrite E92; cbn; tauto|].
  destruct (Nat.leb 32 n && Nat.ltb n 127) eqn:E.
  - apply andb_true_iff in E as [E1 E2]. apply Nat.leb_le in E1. apply quoted_char; [|exact IH]. unfold codes. fold n. cbn. lia.
  - apply (quoted_hex _ _ (n / 16) (n mod 16)); [apply hex_digit_is, Nat.div_lt_upper_bound; lia|apply hex_digit_is, Nat.mod_upper_bound; lia|exact (Nat.div_mod n 16 ltac:(lia))|exact IH].
Qed.
Lemma quote_text s : text (quote s) s false.
Proof. apply text_quoted, quote_body_quoted. Qed.

(** ** Values *)
Fixpoint print (v : value) : string :=
  match v with
  | VInt z => show_int z
  | VNum s | VRaw s => s
  | VStr s => quote s
  | VBool b => if b then "true" else "false"
  | VPtr v => print v
  | VList l => "{" ++ join "," (map print l) ++ "}"
  | VMap m => "{" ++ join "," (map (fun kv => quote (fst kv) ++ ":" ++ print (snd kv)) m) ++ "}"
  end%string.

Section ValueInd.
  Variable P : value -> Prop.
  Hypothesis Pint : forall z, P (VInt z).
  Hypothesis Pnum : forall s, P (VNum s).
  Hypothesis Pstr : forall s, P (VStr s).
  Hypothesis Pbool : forall b, P (VBool b).
  Hypothesis Plist : forall l, Forall P l -> P (VList l).
  Hypothesis Pmap : forall m, Forall (fun kv => P (snd kv)) m -> P (VMap m).
  Hypothesis Praw : forall s, P (VRaw s).
  Hypothesis Pptr : forall v, P v -> P (VPtr v).
  Fixpoint value_deep (v : value) : P v :=
    match v with
    | VInt z => Pint z | VNum s => Pnum s | VStr s => Pstr s | VBool b => Pbool b | VRaw s => Praw s
    | VList l => Plist l ((fix go l := match l return Forall P l with [] => Forall_nil _ | x :: r => Forall_cons _ (value_deep x) (go r) end) l)
    | VMap m => Pmap m ((fix go m := match m return Forall (fun kv => P (snd kv)) m with [] => Forall_nil _ | x :: r => Forall_cons _ (value_deep (snd x)) (go r) end) m)
    | VPtr v => Pptr v (value_deep v)
    end.
End ValueInd.

Section Write.
  Variable float_ok : string -> bool.
  Notation W v := (forall a, written float_ok a v -> denotes float_ok a (print v) v false) (only parsing).
  Definition G (v : value) : Prop := forall a, free float_ok a v -> written float_ok a v -> guessed (print v) a.

  Lemma print_items_r (l : list value) : l <> [] -> calm (match tl (map print l) with [] => "" | r => "," ++ join "," r end ++ "}").
  Proof. intros _. destruct (tl (map print l)); [apply calm_brace, calm_nil|]. apply calm_comma. Qed.
  Lemma join_cons x l : join "," (x :: l) = (x ++ match l with [] => "" | _ => "," ++ join "," l end)%string.
  Proof. destruct l; cbn; [rewrite str_app_nil_r; reflexivity|reflexivity]. Qed.
  Lemma denotes_before a s v b : denotes float_ok a s v b -> before "" s.
  Proof. intros _. apply before_none. Qed.

  Lemma guess_print v : G v.
  Proof.
    induction v as [z|s|s|b|l IH|m IH|s|v IH] using value_deep; intros a Fr Wr; inversion Fr; subst; cbn [print].
    - apply guessed_int with z. apply show_int_integer.
    - apply (guessed_str _ s false); [apply quote_text|discriminate].
    - apply guessed_bool. destruct b; auto.
    - inversion IH as [|? ? IHv IHl]; subst. cbn [map]. rewrite join_cons, str_app_assoc.
      apply (guessed_slice "" _ _ _ spaces_nil); [apply IHv; assumption|]. destruct (map print l0); [apply (calm_brace ""), calm_nil|apply calm_comma].
    - destruct m as [|[k v] m]; [exact (guessed_empty "" spaces_nil)|]. inversion IH as [|? ? IHv IHl]; subst. inversion Wr as [| | | | | |? ? Nd Fm| |]; subst. inversion Fm as [|? ? Wv Wm]; subst. cbn [snd] in *. inversion Wv as [| | | | | | | |g w0 Fg Wg E]; subst.
      cbn [map fst snd]. rewrite join_cons. pose proof (IHv g Fg Wg) as Gv. set (r := match map _ m with [] => "" | _ => _ end). assert (C : calm (r ++ "}")) by (unfold r; destruct (map _ m); [apply (calm_brace ""), calm_nil|apply calm_comma]).
      pose proof (guessed_map "" (quote k) k false "" "" (print v) g (r ++ "}") spaces_nil (quote_text k) ltac:(discriminate) spaces_nil spaces_nil Gv C) as X. cbn [append] in X. rewrite !str_app_assoc. exact X.
  Qed.
  Lemma items_print a l : Forall (fun v => item float_ok a (print v) v false) l -> items float_ok a (join "," (map print l)) l.
  Proof.
    induction 1 as [|v l Iv Fl IH]; [apply items_none|]. cbn [map]. rewrite join_cons. destruct l as [|v' l].
    - pose proof (items_last float_ok a (print v) v false "" Iv (conj spaces_nil (fun _ => eq_refl))) as X. exact X.
    - exact (items_more float_ok a (print v) v false "" "" _ (v' :: l) Iv (conj spaces_nil (fun _ => eq_refl)) spaces_nil IH).
  Qed.
  Lemma mset_fresh (m : list (string * value)) k v : ~ In k (map fst m) -> mset String.eqb m k v = m ++ [(k, v)].
  Proof. induction m as [|[x y] m IH]; intros N; [reflexivity|]. cbn in *. destruct (String.eqb_spec k x) as [->|]; [tauto|]. rewrite IH by tauto. reflexivity. Qed.
  Lemma pairs_print a m : Forall (fun kv => denotes float_ok a (print (snd kv)) (snd kv) false) m -> forall m0, NoDup (map fst (m0 ++ m)) -> pairs float_ok a (join "," (map (fun kv => (quote (fst kv) ++ ":" ++ print (snd kv))%string) m)) m0 (m0 ++ m).
  Proof.
    induction 1 as [|[k v] m Dv Fl IH]; intros m0 Nd; [rewrite app_nil_r; apply pairs_none|]. cbn [map fst snd] in *. rewrite join_cons.
    assert (Fr : ~ In k (map fst m0)) by (rewrite map_app in Nd; apply NoDup_remove_2 in Nd; intros I; apply Nd, in_or_app; auto).
    assert (Em : mset String.eqb m0 k v ++ m = m0 ++ (k, v) :: m) by (rewrite mset_fresh by exact Fr; rewrite <- app_assoc; reflexivity).
    destruct m as [|kv' m].
    - pose proof (pairs_last float_ok a (quote k) k false "" "" (print v) v false "" m0 (quote_text k) (conj spaces_nil (fun _ => eq_refl)) (before_none _) Dv (conj spaces_nil (fun _ => eq_refl))) as X. rewrite app_nil_r in Em. rewrite Em in X. rewrite !str_app_assoc. exact X.
    - pose proof (IH (mset String.eqb m0 k v) ltac:(rewrite Em; exact Nd)) as Y. rewrite Em in Y.
      pose proof (pairs_more float_ok a (quote k) k false "" "" (print v) v false "" "" _ m0 _ (quote_text k) (conj spaces_nil (fun _ => eq_refl)) (before_none _) Dv (conj spaces_nil (fun _ => eq_refl)) spaces_nil Y) as X. rewrite !str_app_assoc. exact X.
  Qed.
  Lemma print_denotes v : W v.
  Proof.
    induction v as [z|s|s|b|l IH|m IH|s|v IH] using value_deep; intros a Wr.
    - assert (X : forall g, g <> AAny -> written float_ok g (VInt z) -> denotes float_ok g (print (VInt z)) (VInt z) false).
      { intros g Na H. inversion H; subst; [apply denotes_int with z; [apply show_int_integer|assumption|reflexivity]| |congruence]. apply denotes_int with z; [apply show_int_integer|unfold in_int64; lia|]. split; [assumption|exists 0%Z; lia]. }
      destruct a; try (apply X; [discriminate|exact Wr]). inversion Wr as [| | | | | | | |g v0 Fr Wg]; subst. apply (denotes_any _ _ g); [apply guess_print; assumption|]. inversion Fr; subst; apply X; [discriminate|assumption].
    - inversion Wr as [| |s0 D F| | | | | |g v0 Fr Wg]; subst; [apply denotes_num; assumption|inversion Fr].
    - assert (X : denotes float_ok AStr (print (VStr s)) (VStr s) false) by (apply denotes_str, quote_text). inversion Wr as [| | | | | | | |g v0 Fr Wg]; subst; [exact X|]. apply (denotes_any _ _ g); [apply guess_print; assumption|]. inversion Fr; subst; exact X.
    - assert (X : denotes float_ok ABool (print (VBool b)) (VBool b) false) by (destruct b; constructor). inversion Wr as [| | | | | | | |g v0 Fr Wg]; subst; [exact X|]. apply (denotes_any _ _ g); [apply guess_print; assumption|]. inversion Fr; subst; exact X.
    - assert (X : forall c, Forall (written float_ok c) l -> denotes float_ok (ASlice c) (print (VList l)) (VList l) false).
      { intros c F. apply (denotes_list _ c "" _ _ spaces_nil), items_print. rewrite Forall_forall in *. intros v I. specialize (IH v I). specialize (F v I).
        destruct c; try (apply item_typed; [discriminate|apply IH; exact F]). inversion F as [| | | | | | | |g v0 Fr Wg]; subst. apply (item_any _ _ g); [apply guess_print; assumption|apply IH; exact Wg]. }
      inversion Wr as [| | | | |c l0 F| | |g v0 Fr Wg]; subst; [apply X; exact F|]. apply (denotes_any _ _ g); [apply guess_print; assumption|]. inversion Fr; subst. inversion Wg; subst. apply X. assumption.
    - assert (X : forall c, NoDup (map fst m) -> Forall (fun kv => written float_ok c (snd kv)) m -> denotes float_ok (AMap c) (print (VMap m)) (VMap m) false).
      { intros c Nd F. apply (denotes_map _ c "" _ _ spaces_nil). apply (pairs_print c m); [|exact Nd]. rewrite Forall_forall in *. intros kv I. exact (IH kv I c (F kv I)). }
      inversion Wr as [| | | | | |c m0 Nd F| |g v0 Fr Wg]; subst; [apply X; assumption|]. apply (denotes_any _ _ g); [apply guess_print; assumption|]. inversion Fr; subst. inversion Wg; subst. apply X; assumption.
    - inversion Wr as [| | | | | | | |g v0 Fr Wg]; subst. inversion Fr.
    - inversion Wr as [| | | | | | |c v0 Na Wv|g v0 Fr Wg]; subst; [|inversion Fr]. apply denotes_ptr; [exact Na|]. exact (IH c Wv).
  Qed.

  (** ** Raw arguments *)
  Lemma parse_raw d f s out : d_fields d = [("", f)] -> f_arg f = ARaw -> s <> "" -> parse_fields float_ok d s = Ok out -> out = [(f_name f, VRaw s)].
  Proof.
    intros E Ea Ne. unfold parse_fields, anonymous_field. cbv zeta. rewrite E. change (String.eqb "" "") with true. assert (P : match peek (new_scanner s) with Some _ => true | None => false end = true) by (destruct s; [congruence|reflexivity]). rewrite P. cbn [andb]. rewrite bind_ok.
    intros ([[seen out0] s'] & H1 & H). apply bind_ok in H1 as ([v s1] & H1 & [= <- <- <-]). apply bind_ok in H as ([t s2] & H2 & H). destruct t; try discriminate. destruct (_ && _); [discriminate|]. injection H as <-.
    unfold parse_arg in H1. rewrite Ea in H1. unfold fuel in H1. cbn [arg_size] in H1. destruct (2 * 1 + _ + _) as [|n] eqn:En; [lia|]. cbn [parse] in H1. apply bind_ok in H1 as (s3 & _ & [= <- _]). unfold new_scanner. cbn [pos]. destruct s; reflexivity.
  Qed.
End Write.

(** ** Definitions from structs *)
Definition arg_name (f : sfield) : string := fst (argument_info f).
Definition exported (fs : list sfield) : list sfield := filter sf_exported fs.
Definition field_of (f : sfield) (a : arg) : field := mkField (sf_name f) a (snd (argument_info f) || is_ptr a).
Lemma load_struct_spec fs : forall acc l, load_struct fs acc = Some l ->
  (forall f, In f (exported fs) -> exists a, argument_from_type (sf_type f) = Some a /\ a <> ARaw) /\
  (forall n g, mget String.eqb l n = Some g <->
     (exists x f y a, exported fs = x ++ f :: y /\ arg_name f = n /\ ~ In n (map arg_name y) /\ argument_from_type (sf_type f) = Some a /\ g = field_of f a) \/ (mget String.eqb acc n = Some g /\ ~ In n (map arg_name (exported fs)))) /\
  (NoDup (map fst acc) -> NoDup (map fst l)).
Proof.
  induction fs as [|f fs IH]; intros acc l H; cbn [load_struct exported filter] in *.
  - injection H as <-. split; [intros f []|]. split; [|tauto]. intros n g. split; [intros E; right; split; [exact E|intros []]|intros [(x & f & y & a & E & _)|[E _]]; [destruct x; discriminate|exact E]].
  - destruct (sf_exported f) eqn:Ex; cbn [negb] in H; [|exact (IH acc l H)]. destruct (argument_info f) as [name opt] eqn:Ai. destruct (argument_from_type (sf_type f)) as [a|] eqn:At; [|discriminate].
    assert (Na : a <> ARaw) by (intros ->; discriminate). assert (H' : load_struct fs (mset String.eqb acc name (mkField (sf_name f) a (opt || is_ptr a))) = Some l) by (destruct a; [exact H..|congruence|exact H]). clear H. destruct (IH _ _ H') as (I1 & I2 & I3). fold (exported fs) in *.
    assert (En : arg_name f = name) by (unfold arg_name; rewrite Ai; reflexivity). assert (Ef : field_of f a = mkField (sf_name f) a (opt || is_ptr a)) by (unfold field_of; rewrite Ai; reflexivity). rewrite <- Ef in *. split; [|split].
    + intros g [<-|I]; [eauto|exact (I1 g I)].
    + intros n g. rewrite I2. split.
      * intros [(x & f' & y & b & E & R)|[E Nn]]; [left; exists (f :: x), f', y, b; rewrite E; split; [reflexivity|exact R]|]. destruct (String.eqb_spec n name) as [->|Ne].
        -- rewrite (mget_mset_eq _ _ _ String.eqb_eq) in E. injection E as <-. left. exists [], f, (exported fs), a. auto.
        -- rewrite (mget_mset_ne _ _ _ String.eqb_eq) in E by congruence. right. split; [exact E|]. cbn [map In]. rewrite En. intros [X|X]; [congruence|exact (Nn X)].
      * intros [([|f0 x] & f' & y & b & E & E1 & E2 & E3 & E4)|[E Nn]].
        -- injection E as <- <-. right. rewrite En in E1. subst n. rewrite At in E3. injection E3 as <-. subst g. split; [apply (mget_mset_eq _ _ _ String.eqb_eq)|exact E2].
        -- injection E as _ E. left. exists x, f', y, b. auto.
        -- right. cbn [map In] in Nn. rewrite En in Nn. rewrite (mget_mset_ne _ _ _ String.eqb_eq) by (intros ->; apply Nn; auto). tauto.
    + intros Nd. apply I3. exact (mset_nodup _ _ _ String.eqb_eq _ _ _ Nd).
Qed.
Lemma make_definition_struct fs d : make_definition (OStruct fs) = Some d -> d_strict d = true /\ forall n g, declared d n g <-> exists x f y a, exported fs = x ++ f :: y /\ arg_name f = n /\ ~ In n (map arg_name y) /\ argument_from_type (sf_type f) = Some a /\ g = field_of f a.
Proof.
  cbn. destruct (load_struct fs []) as [l|] eqn:E; [|discriminate]. intros [= <-]. split; [reflexivity|]. intros n g. rewrite declared_iff. cbn [d_fields]. destruct (load_struct_spec fs [] l E) as (_ & I & _). rewrite I. split; [intros [H|[H _]]; [exact H|discriminate]|auto].
Qed.
