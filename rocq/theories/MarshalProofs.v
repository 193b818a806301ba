(** * Proofs: what encoding/json writes is accepted. *)
From Coq Require Import List String Ascii Bool ZArith QArith Permutation Lia.
From Verif Require Import GoLib GoLibFacts MapFacts SchemaModel RefModel ErrorsModel ValidSpec MarkModel MarkSpec StructModel FlattenModel NeedModel StructSpec StructProofs MarshalSpec.
Import ListNotations.
Open Scope nat_scope.
Open Scope string_scope.
Open Scope list_scope.

Lemma valid_desc O s d v : valid O (set_desc s d) v = valid O s v.
Proof. destruct s. reflexivity. Qed.
Lemma integer_Z z : is_integer (inject_Z z) = true.
Proof.
  unfold is_integer, Qred, inject_Z. pose proof (Z.ggcd_correct_divisors z 1) as D. pose proof (Z.ggcd_gcd z 1) as G. rewrite Z.gcd_1_r in G.
  destruct (Z.ggcd z 1) as [g [a b]]. cbn in *. subst g. destruct D as [_ D]. rewrite Z.mul_1_l in D. subst b. reflexivity.
Qed.
Lemma link_nonempty p n : String.eqb (type_ref_link p n) "" = false.
Proof. reflexivity. Qed.

(** Validity of the schemas made *)
Lemma valid_typed O t f v : valid O (typed t f) v = type_ok t false v && (String.eqb f "" || o_format O f v).
Proof.
  cbn. unfold kw_ok, kw_checks, typed. cbn. destruct v; cbn; rewrite ?andb_true_r; reflexivity.
Qed.
Lemma valid_typed_ref O t f r v : valid O (set_ref (typed t f) (Some r)) v = type_ok t false v && ((String.eqb r "" || o_ref O r v) && (String.eqb f "" || o_format O f v)).
Proof. cbn. unfold kw_ok, kw_checks, typed. cbn. destruct v; cbn; rewrite ?andb_true_r; reflexivity. Qed.
Lemma valid_ref_to O p n v : valid O (ref_to p n) v = o_ref O (type_ref_link p n) v.
Proof. cbn. unfold kw_ok, kw_checks. cbn. destruct v; cbn; rewrite ?andb_true_r; reflexivity. Qed.
Lemma valid_array O it l : valid O (set_items (set_type schema0 "array") (Some (Some it, []))) (JArr l) = forallb (valid O it) l.
Proof. cbn. unfold kw_ok, kw_checks. cbn. rewrite ?andb_true_r. reflexivity. Qed.
Lemma valid_map O x l : valid O (set_addl (set_type schema0 "object") (Some (true, Some x))) (JObj l) = forallb (fun kv => valid O x (snd kv)) l.
Proof. cbn. unfold kw_ok, kw_checks. cbn. rewrite ?andb_true_r. reflexivity. Qed.
Lemma valid_object O r a p l : valid O (set_props (set_allOf (set_required (set_type schema0 "object") r) a) p) (JObj l) =
  forallb (has_key l) r && forallb (fun c => valid O c (JObj l)) a && forallb (fun x => match mget String.eqb l (fst x) with Some v => valid O (snd x) v | None => true end) p.
Proof. cbn. unfold kw_ok, kw_checks. cbn. rewrite ?andb_true_r. reflexivity. Qed.

Section Marshal.
  Variable order : marker_values -> marker_values.
  Variable sorted : list (string * smarker) -> list (string * smarker).
  Hypothesis Ho : is_order order.
  Hypothesis Hs : sorts sorted.
  Variable allow_dangerous ig : bool.
  Variable imports : string -> string -> bool.
  Variable pkg_markers : string -> marker_values.
  Variable types : ident -> option tinfo.
  Variable presets : string -> list (string * schema).
  Variable override : ident -> json -> Prop.
  Variable base64 : string -> Prop.
  Variable O : string -> oracles.
  Notation SO := (schema_of order sorted allow_dangerous ig imports pkg_markers types presets).
  Notation GEN := (generated order sorted allow_dangerous ig imports pkg_markers).
  Notation TTS pkg := (type_to_schema order sorted (imports pkg) allow_dangerous).
  Notation preset id := (mget String.eqb (presets (fst id)) (snd id)).

  Lemma unmarked_apply ms s : unmarked ms -> apply_markers order sorted ms s = (s, []).
  Proof.
    intros U. unfold apply_markers.
    assert (E : schema_markers order ms = []).
    { unfold schema_markers. assert (U' : unmarked (order ms)) by (intros n vs m Hi; apply (U n vs m); apply (Permutation_in _ (Ho ms)), Hi).
      induction (order ms) as [|[n vs] l IH]; [reflexivity|]. cbn [flat_map fst snd]. rewrite IH by (intros n' vs' m Hi; apply (U' n' vs' m); right; exact Hi). rewrite app_nil_r.
      assert (V : forall m, ~ In (VSchema m) vs) by (intros m; apply (U' n vs m); left; reflexivity). clear -V. induction vs as [|v vs IH]; [reflexivity|]. cbn [flat_map]. destruct v as [m|]; [destruct (V m); left; reflexivity|].
      apply IH. intros m Hm. apply (V m). right. exact Hm. }
    rewrite E. cbn [filter]. assert (N : sorted [] = []) by (apply Permutation_nil, Permutation_sym, (proj1 (Hs []))). rewrite N. reflexivity.
  Qed.
  Lemma unmarked_with ms s : unmarked ms -> with_markers order sorted ms s = Done s [] [].
  Proof. intros U. unfold with_markers. rewrite (unmarked_apply ms s U). reflexivity. Qed.
  Lemma unmarked_nil : unmarked [].
  Proof. intros ? ? ? []. Qed.
  Lemma post_done x d ms s r : unmarked ms -> bind x (fun s => with_markers order sorted ms (set_desc s d)) = Done s r [] ->
    exists s0, x = Done s0 r [] /\ s = set_desc s0 d.
  Proof.
    intros U H. apply bind_done in H as (s0 & r1 & e1 & r2 & e2 & H1 & H2 & -> & E). rewrite (unmarked_with _ _ U) in H2. injection H2 as <- <- <-.
    symmetry in E. apply app_eq_nil in E as [-> _]. exists s0. rewrite app_nil_r. auto.
  Qed.
  Lemma bind_clean {A B} (x : res A) (f : A -> res B) b r : bind x f = Done b r [] -> exists a r1 r2, x = Done a r1 [] /\ f a = Done b r2 [] /\ r = r1 ++ r2.
  Proof. intros H. apply bind_done in H as (a & r1 & e1 & r2 & e2 & H1 & H2 & -> & E). symmetry in E. apply app_eq_nil in E as [-> ->]. exists a, r1, r2. auto. Qed.

  Hypothesis Sens : sensible O base64 SO.
  Hypothesis Over : forall id j, override id j -> exists s, preset id = Some s /\ valid (O (fst id)) s j = true.
  Hypothesis Good : forall id ti, uncovered types presets id = Some ti -> ti_json ti = false ->
    proper_type ig (pkg_markers (fst id)) ti /\ exists s reqs, GEN id ti = Done s reqs [].

  Definition accepted (id : ident) (j : json) : Prop := exists s, SO id = Some s /\ valid (O (fst id)) s j = true.
  Definition passes (pkg : string) (e : texpr) (j : json) : Prop := faithful e -> forall S1 S2 d ms s reqs, unmarked ms ->
    TTS pkg S1 S2 d ms e = Done s reqs [] -> valid (O pkg) s j = true.

  Lemma ref_here pkg m j : accepted (pkg, m) j -> o_ref (O pkg) (type_ref_link "" m) j = true.
  Proof. intros (s & E & V). apply (sens_ref _ _ _ Sens pkg _ (pkg, m) s j); [exists ""; auto|exact E|exact V]. Qed.
  Lemma ref_there pkg p m j : p <> "" -> accepted (p, m) j -> o_ref (O pkg) (type_ref_link p m) j = true.
  Proof. intros N (s & E & V). apply (sens_ref _ _ _ Sens pkg _ (p, m) s j); [exists p; auto|exact E|exact V]. Qed.
  Lemma basic_ok pkg k j t f : basic_json k j -> k <> BUint32 /\ k <> BUint64 -> builtin_to_type allow_dangerous k = Some (t, f) ->
    type_ok t false j = true /\ (String.eqb f "" || o_format (O pkg) f j) = true.
  Proof.
    intros B [N1 N2] E. unfold builtin_to_type in E. destruct B as [b|s|k lo hi z R L|k q K].
    - injection E as <- <-. auto.
    - injection E as <- <-. auto.
    - assert (T : type_ok "integer" false (JNum (inject_Z z)) = true) by (unfold type_ok; rewrite integer_Z; reflexivity).
      destruct k; cbn in R; try discriminate; cbn in E; injection E as <- <-; (split; [exact T|]); try reflexivity; try congruence; injection R as <- <-.
      + apply (sens_int32 _ _ _ Sens). exact L.
      + apply (sens_int64 _ _ _ Sens). exact L.
    - destruct K as [-> | ->]; cbn in E; destruct allow_dangerous; try discriminate; injection E as <- <-; auto.
  Qed.
  (** A value of a map *)
  Lemma map_value pkg v (w : res schema) : (match v with
           | EIdent name t => w = local_named (imports pkg) allow_dangerous name t
           | ESel t => w = named (imports pkg) t
           | EArray sized elt =>
               w = (if is_byte_type (type_of elt) && negb sized then ret (typed "string" "byte")
                     else bind (TTS pkg Panic Panic "" [] elt) (fun items => ret (set_items (set_type schema0 "array") (Some (Some items, [])))))
           | EStar _ | EMap _ _ => w = TTS pkg Panic Panic "" [] v
           | EStruct | EOther => False
           end) -> forall x r, w = Done x r [] -> exists x', TTS pkg Panic Panic "" [] v = Done x' r [] /\ forall j, valid (O pkg) x j = valid (O pkg) x' j.
  Proof.
    intros W x r E.
    assert (K : forall w', w' = Done x r [] -> bind w' (fun s => with_markers order sorted [] (set_desc s "")) = Done (set_desc x "") r []).
    { intros w' ->. cbn. rewrite (unmarked_with [] _ unmarked_nil). rewrite app_nil_r. reflexivity. }
    destruct v as [n t|t|sz e|k v|e| |]; try contradiction; subst w.
    - exists (set_desc x ""). split; [apply (K _ E)|]. intros j. symmetry. apply valid_desc.
    - exists (set_desc x ""). split; [apply (K _ E)|]. intros j. symmetry. apply valid_desc.
    - exists (set_desc x ""). split; [apply (K _ E)|]. intros j. symmetry. apply valid_desc.
    - exists x. auto.
    - exists x. auto.
  Qed.

  Lemma fields_clean pkg pm fs : forall s s' r, fields_to_schema order sorted (imports pkg) allow_dangerous ig pm fs s = Done s' r [] ->
    forall f n i q, In f fs -> plays ig pm f (Member n i q) -> ~ marked (fi_markers f) "kubebuilder:validation:Schemaless" -> exists b r', TTS pkg Panic Panic "" [] (fi_type f) = Done b r' [].
  Proof.
    induction fs as [|f fs IH]; intros s s' r H g n i q Hin P M; [destruct Hin|]. cbn [fields_to_schema] in H. apply bind_clean in H as (s1 & r1 & r2 & H1 & H2 & ->).
    destruct Hin as [->|Hin]; [|eapply IH; eassumption]. apply plays_role in P. unfold role_of in P. unfold field_step in H1. fold (is_hidden ig g) in H1. destruct (is_hidden ig g); [discriminate|].
    destruct (fi_json g) as [tag|]; [|discriminate]. destruct (_ && _) in P, H1; [discriminate|]. cbn zeta in H1. apply bind_clean in H1 as (b & r3 & r4 & H1 & _ & _).
    apply marked_false in M. rewrite M in H1. eauto.
  Qed.

  Lemma encoding_accepted : (forall id j, encodes (uncovered types presets) override base64 id j -> accepted id j) /\
    (forall pkg e j, writes (uncovered types presets) override base64 pkg e j -> passes pkg e j).
  Proof.
    assert (GoodS : forall id ti, uncovered types presets id = Some ti -> ti_json ti = false -> exists s reqs, SO id = Some s /\ GEN id ti = Done s reqs []).
    { intros id ti U J. destruct (Good id ti U J) as (_ & s & reqs & G). exists s, reqs. split; [|exact G]. unfold uncovered in U. unfold schema_of. destruct (preset id); [discriminate|]. rewrite U, G. reflexivity. }
    apply encoding_ind.
    - intros id j H. destruct (Over id j H) as (s & P & V). exists s. split; [unfold schema_of; rewrite P; reflexivity|exact V].
    - intros id ti s U J T. destruct (GoodS id ti U J) as (s' & reqs & E & G). destruct (Good id ti U J) as ((Un & _) & _). exists s'. split; [exact E|].
      unfold generated, info_to_schema in G. rewrite J, T in G. rewrite (unmarked_with _ _ Un) in G. cbn in G. injection G as <- _. 
      change (set_type schema0 "string") with (typed "string" ""). rewrite valid_typed. reflexivity.
    - (* structs *)
      intros id ti l U J T R Hreq Hval IHval Hspread IHspread. destruct (GoodS id ti U J) as (s & reqs & E & G). destruct (Good id ti U J) as ((Un & Fp & _) & _). specialize (Fp R).
      exists s. split; [exact E|]. clear E. unfold generated, info_to_schema in G. rewrite J, T in G. unfold spec_to_schema in G. rewrite R in G. cbn [type_to_schema] in G.
      apply (post_done _ _ _ _ _ Un) in G as (s0 & G & ->). rewrite valid_desc.
      pose proof (fields_clean _ _ _ _ _ _ G) as Cl. apply fields_parts in G as (xs & F & -> & _). rewrite parts_same. rewrite valid_object. rewrite parts_required, parts_allOf.
      assert (Ok : Forall part_ok xs). { clear -F. induction F as [|f x fs xs C F IH]; constructor; [exact (con_ok _ _ _ _ _ _ _ _ C)|exact IH]. }
      assert (X : forall x, In x xs -> exists f, In f (ti_fields ti) /\ contributes order sorted (imports (fst id)) allow_dangerous ig (pkg_markers (fst id)) f x).
      { clear -F. induction F as [|f x fs xs C F IH]; intros y Hy; [destruct Hy|]. destruct Hy as [<-|Hy]; [exists f; cbn; auto|]. destruct (IH y Hy) as (g & I & C'). exists g. cbn. auto. }
      (* the role of a field and its place *)
      assert (Pl : forall f n i q, In f (ti_fields ti) -> plays ig (pkg_markers (fst id)) f (Member n i q) ->
        (i = true -> goes f Spread /\ q = false) /\ (i = false -> exists omit, goes f (Under n omit) /\ (q = true -> omit = false))).
      { intros f n i q Hf P. pose proof (proj1 (Forall_forall _ _) Fp f Hf) as (_ & _ & Pv & Pt). inversion P as [|? ?|? ?|tag n' opts i' o q' NH J' ND TP I' O' Q]; subst.
        destruct (Pt tag n opts J' TP) as (Pi & Pn & Pq). split.
        - intros ->. assert (n = "") as -> by (destruct I' as [I' _]; destruct (I' eq_refl) as [->|K]; auto). split; [eapply goes_embedded; eauto|].
          destruct q; [|reflexivity]. destruct (Pq true) as [K _]; [exact P|]. congruence.
        - intros ->. exists o. split.
          + assert (Nn : n <> "") by (intros ->; destruct I' as [_ I']; discriminate I'; auto). eapply goes_tag; try eassumption.
            destruct (string_dec (fi_name f) "") as [En|En]; [left; exact En|right]. destruct (fi_exported f) eqn:Ex; [reflexivity|]. exfalso. destruct (Pv En eq_refl) as [K|K]; [|congruence]. apply NH. repeat split; assumption.
          + intros ->. destruct (Pq false P) as [_ K]. destruct o; [|reflexivity]. exfalso. apply K, O'. reflexivity. }
      (* the schema of a field accepts its value *)
      assert (Fv : forall f n i q p pk v, In f (ti_fields ti) -> pk = fst id -> plays ig (pkg_markers pk) f (Member n i q) -> field_schema order sorted (imports pk) allow_dangerous f p -> passes pk (fi_type f) v -> valid (O pk) p v = true).
      { intros f n i q p pk v Hf -> P (b & B1 & B2 & ->) Pa. pose proof (proj1 (Forall_forall _ _) Fp f Hf) as (Uf & Ff & _). rewrite (unmarked_apply _ _ Uf). cbn [fst]. rewrite valid_desc.
        destruct (has_marker (fi_markers f) "kubebuilder:validation:Schemaless") eqn:M.
        - apply marked_iff in M. rewrite (B1 M). destruct v; reflexivity.
        - apply marked_false in M. destruct (Cl f n i q Hf P M) as (b' & r' & E'). destruct (B2 M) as (r'' & e'' & E''). assert (b' = b) as -> by congruence.
          exact (Pa Ff _ _ _ _ _ _ unmarked_nil E'). }
      rewrite !andb_true_iff. cbn [s_kw set_type with_kw k_required schema0 kw0 set_k_type app s_allOf]. split; [split|].
      + apply forallb_forall. intros n Hn. apply in_flat_map in Hn as ([r o] & Hx & Hn). destruct (X _ Hx) as (f & Hf & C). cbn [snd fst] in Hn. destruct o as [p|]; [|destruct Hn].
        destruct r as [| |n' i q]; try destruct Hn. destruct q; [|destruct Hn]. destruct Hn as [->|[]]. destruct C as [C _]. destruct (Pl f n i true Hf C) as [Pi Pk].
        destruct i; [destruct (Pi eq_refl) as [_ [=]]|]. destruct (Pk eq_refl) as (omit & Gf & K). unfold has_key. pose proof (Hreq f n omit Hf Gf (K eq_refl)) as Z. destruct (mget String.eqb l n); [reflexivity|congruence].
      + apply forallb_forall. intros p Hp. apply in_flat_map in Hp as ([r o] & Hx & Hp). destruct (X _ Hx) as (f & Hf & C1 & C2). destruct r as [| |n [] q]; try destruct Hp. destruct o as [p'|]; [|destruct Hp]. destruct Hp as [->|[]].
        destruct (Pl f n true q Hf C1) as [Pi _]. destruct (Pi eq_refl) as [Gf _]. eapply Fv; eauto.
      + apply forallb_forall. intros [n p] Hp. cbn [fst snd]. destruct (mget String.eqb l n) as [v|] eqn:Ev; [|reflexivity].
        assert (Ep : mget String.eqb (s_props (fold_left add_part xs (set_type schema0 "object"))) n = Some p).
        { apply (in_mget _ _ _ String.eqb_eq); [|exact Hp]. apply parts_props_nodup. constructor. }
        apply (parts_props n xs Ok) in Ep. destruct Ep as [(pre & q & post & Exs & _)|[_ Ep]]; [|discriminate].
        assert (Hx : In (Member n false q, Some p) xs) by (rewrite Exs; apply in_or_app; right; left; reflexivity).
        destruct (X _ Hx) as (f & Hf & C1 & C2). destruct (Pl f n false q Hf C1) as [_ Pk]. destruct (Pk eq_refl) as (omit & Gf & _). eapply Fv; eauto.
    - (* other types *)
      intros id ti j U J T R W IH. destruct (GoodS id ti U J) as (s & reqs & E & G). destruct (Good id ti U J) as ((Un & _ & Fa) & _). exists s. split; [exact E|].
      unfold generated, info_to_schema in G. rewrite J, T in G. unfold spec_to_schema in G. exact (IH Fa _ _ _ _ _ _ Un G).
    - intros pkg n k j B Fa S1 S2 d ms s reqs Un H. cbn [type_to_schema] in H. apply (post_done _ _ _ _ _ Un) in H as (s0 & H & ->). rewrite valid_desc. cbn in H.
      destruct (builtin_to_type allow_dangerous k) as [[t f]|] eqn:Eb; cbn in H; rewrite String.eqb_refl in H; cbn in H; [|discriminate]. injection H as <- _. rewrite valid_typed.
      destruct (basic_ok pkg k j t f B Fa Eb) as [-> ->]. reflexivity.
    - intros pkg n m u j En A Fa S1 S2 d ms s reqs Un H. cbn [type_to_schema] in H. apply (post_done _ _ _ _ _ Un) in H as (s0 & H & ->). rewrite valid_desc. cbn in H.
      injection H as <- _. rewrite valid_ref_to. apply ref_here, A.
    - intros pkg n p m u j Np En A Fa S1 S2 d ms s reqs Un H. cbn [type_to_schema] in H. apply (post_done _ _ _ _ _ Un) in H as (s0 & H & ->). rewrite valid_desc. cbn in H.
      apply bind_clean in H as (a & r1 & r2 & _ & H & _). injection H as <- _. rewrite valid_ref_to. apply ref_there; assumption.
    - intros pkg n k b j B En A Fa S1 S2 d ms s reqs Un H. cbn [type_to_schema] in H. apply (post_done _ _ _ _ _ Un) in H as (s0 & H & ->). rewrite valid_desc. cbn in H.
      destruct (builtin_to_type allow_dangerous k) as [[t f]|] eqn:Eb; cbn in H; destruct (String.eqb b n) eqn:Ebn; cbn in H; try discriminate; injection H as <- _.
      + rewrite valid_typed. destruct (basic_ok pkg k j t f B Fa Eb) as [-> ->]. reflexivity.
      + rewrite valid_typed_ref. destruct (basic_ok pkg k j t f B Fa Eb) as [-> ->]. pose proof (ref_here pkg n j A) as Rf. unfold type_ref_link in Rf. cbn [negb andb String.eqb] in Rf. cbn in Rf |- *. rewrite Rf. reflexivity.
    - intros pkg n m u j En A Fa S1 S2 d ms s reqs Un H. cbn [type_to_schema] in H. apply (post_done _ _ _ _ _ Un) in H as (s0 & H & ->). rewrite valid_desc. cbn in H.
      injection H as <- _. rewrite valid_ref_to. apply ref_here, A.
    - intros pkg n p m u j Np En A Fa S1 S2 d ms s reqs Un H. cbn [type_to_schema] in H. apply (post_done _ _ _ _ _ Un) in H as (s0 & H & ->). rewrite valid_desc. cbn in H.
      apply bind_clean in H as (a & r1 & r2 & _ & H & _). injection H as <- _. rewrite valid_ref_to. apply ref_there; assumption.
    - intros pkg p m u j Np En A Fa S1 S2 d ms s reqs Un H. cbn [type_to_schema] in H. apply (post_done _ _ _ _ _ Un) in H as (s0 & H & ->). rewrite valid_desc. cbn in H.
      apply bind_clean in H as (a & r1 & r2 & _ & H & _). injection H as <- _. rewrite valid_ref_to. apply ref_there; assumption.
    - intros pkg p m u j Np En A Fa S1 S2 d ms s reqs Un H. cbn [type_to_schema] in H. apply (post_done _ _ _ _ _ Un) in H as (s0 & H & ->). rewrite valid_desc. cbn in H.
      apply bind_clean in H as (a & r1 & r2 & _ & H & _). injection H as <- _. rewrite valid_ref_to. apply ref_there; assumption.
    - intros pkg e s B B64 [Fb _] S1 S2 d ms s' reqs Un H. cbn [type_to_schema] in H. apply (post_done _ _ _ _ _ Un) in H as (s0 & H & ->). rewrite valid_desc.
      rewrite <- (Fb eq_refl), B in H. injection H as <- _. rewrite valid_typed. cbn. rewrite (sens_byte _ _ _ Sens pkg s B64). reflexivity.
    - intros pkg sz e l NB W IH [Fb Fa] S1 S2 d ms s' reqs Un H. cbn [type_to_schema] in H. apply (post_done _ _ _ _ _ Un) in H as (s0 & H & ->). rewrite valid_desc.
      destruct (is_byte_type (type_of e) && negb sz) eqn:Eb.
      { exfalso. apply andb_true_iff in Eb as [E1 E2]. apply negb_true_iff in E2. apply NB. rewrite (Fb E2). auto. }
      apply bind_clean in H as (it & r1 & r2 & H1 & H2 & _). injection H2 as <- _. rewrite valid_array. apply forallb_forall. intros x Hx. exact (IH x Hx Fa _ _ _ _ _ _ unmarked_nil H1).
    - intros pkg k v l W IH Fa S1 S2 d ms s' reqs Un H. cbn [type_to_schema] in H. apply (post_done _ _ _ _ _ Un) in H as (s0 & H & ->). rewrite valid_desc.
      destruct (negb (string_key k)); [discriminate|].
      assert (K : exists w x r, (match v with
           | EIdent name t => w = local_named (imports pkg) allow_dangerous name t
           | ESel t => w = named (imports pkg) t
           | EArray sized elt =>
               w = (if is_byte_type (type_of elt) && negb sized then ret (typed "string" "byte")
                     else bind (TTS pkg Panic Panic "" [] elt) (fun items => ret (set_items (set_type schema0 "array") (Some (Some items, [])))))
           | EStar _ | EMap _ _ => w = TTS pkg Panic Panic "" [] v
           | EStruct | EOther => False
           end) /\ w = Done x r [] /\ s0 = set_addl (set_type schema0 "object") (Some (true, Some x))).
      { destruct v as [n t|t|sz e|k' v'|e| |]; try discriminate; apply bind_clean in H as (x & r1 & r2 & H1 & H2 & _); injection H2 as <- _; eexists _, x, r1; (split; [reflexivity|]); (split; [exact H1|reflexivity]). }
      destruct K as (w & x & r & Kw & Ew & ->). destruct (map_value pkg v w Kw x r Ew) as (x' & Tx & Vx). rewrite valid_map. apply forallb_forall. intros [key y] Hy. cbn [snd]. rewrite Vx.
      exact (IH key y Hy Fa _ _ _ _ _ _ unmarked_nil Tx).
    - intros pkg e j W IH Fa S1 S2 d ms s' reqs Un H. cbn [type_to_schema] in H. apply (post_done _ _ _ _ _ Un) in H as (s0 & H & ->). rewrite valid_desc. exact (IH Fa _ _ _ _ _ _ Un H).
  Qed.
End Marshal.
