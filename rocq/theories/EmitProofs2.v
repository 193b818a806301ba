(** * Proofs: the values of a type expression *)
From Coq Require Import List String Ascii Bool ZArith QArith Permutation Sorting.Sorted Lia.
From Verif Require Import GoLib GoLibFacts MapFacts SchemaModel RefModel ErrorsModel ValidSpec MarkModel MarkSpec MarkProofs MarkMeaning MarkOrder StructModel FlattenModel NeedModel FlattenSpec StructSpec
  StructProofs MarshalSpec MarshalProofs EmitSpec EmitProofs.
Import ListNotations.
Open Scope nat_scope.
Open Scope string_scope.
Open Scope list_scope.

Lemma null_free_not v : null_free v = true -> v <> JNull.
Proof. intros H ->. discriminate. Qed.

(** A node with its markers *)
Lemma unchanged_rest ks s s' : unchanged_but ks s s' -> with_kw s' kw0 = with_kw s kw0.
Proof.
  intros U. unfold unchanged_but in U. destruct s, s'. cbn in *. decompose [and] U. unfold with_kw. cbn. congruence.
Qed.
Lemma applied_valid O l s s1 own d t f r q v : apply_all l s = (s1, []) -> s_kw s = bare d t f r q -> one_list l -> (forall m, In m own <-> In m (map snd l)) ->
  ~ In (MExclMax true) own -> ~ In (MExclMin true) own -> v <> JNull ->
  (valid O s1 v = true <-> keeps O own t f v /\ ref_ok O r v = true /\ required_ok q v = true /\ valid O (with_kw s kw0) v = true).
Proof.
  intros E Eb L M Nx Nn Nv. pose proof (apply_all_marked l s s1 own L E M) as K. rewrite Eb in K. pose proof (apply_all_unchanged l s) as U. rewrite E in U. cbn [fst] in U.
  rewrite <- (with_kw_id s1), valid_kw. rewrite andb_true_iff, (node_keeps O own d t f r q _ v K Nv Nx Nn). rewrite (unchanged_rest _ _ _ U). tauto.
Qed.
Lemma items_none li s1 s : s_items s1 = None -> apply_items li s1 = (s, []) -> li = [] /\ s = s1.
Proof. rewrite items_all. intros ->. destruct li; [|discriminate]. intros [= <-]. auto. Qed.

Lemma json_of_builtin ad k t f : builtin_to_type ad k = Some (t, f) -> json_of k = Some (t, f).
Proof. unfold builtin_to_type. destruct k; cbn; try (intros [= <- <-]; reflexivity); try discriminate; destruct ad; try discriminate; intros [= <- <-]; reflexivity. Qed.

Section Expr.
  Variable order : marker_values -> marker_values.
  Variable sorted : list (string * smarker) -> list (string * smarker).
  Hypothesis Ho : is_order order.
  Hypothesis Hs : sorts sorted.
  Variable allow_dangerous ig : bool.
  Variable imports : string -> bool.
  Variable pkg_markers : string -> marker_values.
  Variable types : ident -> option tinfo.
  Variable presets : string -> list (string * schema).
  Variable O : oracles.
  Variable pkg : string.
  Notation CONF := (conforms O ig pkg_markers types presets).
  Notation FITS := (fits O ig pkg_markers types presets).
  Notation HOLDS := (holds O ig pkg_markers types presets).
  Notation TTS := (type_to_schema order sorted imports allow_dangerous).
  Variable sem : string -> json -> bool.
  Notation OR := (with_refs O sem).
  (** References mean what they refer to *)
  Definition refs_are (reqs : list (string * string)) : Prop := forall p n v, In (p, n) reqs -> null_free v = true ->
    (sem (type_ref_link p n) v = true <-> CONF (if String.eqb p "" then pkg else p, n) v).

  Lemma local_done n t b reqs : local_named imports allow_dangerous n t = Done b reqs [] ->
    (exists k typ fmt, meant t = TBasic k n /\ json_of k = Some (typ, fmt) /\ b = typed typ fmt /\ reqs = []) \/
    (exists k bn typ fmt, meant t = TBasic k bn /\ bn <> n /\ json_of k = Some (typ, fmt) /\ b = set_ref (typed typ fmt) (Some (type_ref_link "" n)) /\ reqs = [("", n)]) \/
    (exists o m u p, (meant t = TNamed o m u \/ meant t = TAlias o m u) /\ b = ref_to p m /\ reqs = [(p, m)] /\ home pkg o = Some (if String.eqb p "" then pkg else p)).
  Proof.
    intros H. assert (Ht : t <> TInvalid) by (intros ->; discriminate).
    assert (H' : match meant t with
        | TBasic k bname =>
            bind (match builtin_to_type allow_dangerous k with Some r => ret r | None => fails ("", "") GBuiltin end) (fun '(typ, fmt) =>
            if negb (String.eqb bname n) then bind (request imports "" n) (fun _ => ret (set_ref (typed typ fmt) (Some (type_ref_link "" n))))
            else ret (typed typ fmt))
        | TInvalid => bind (fails ("", "") GBuiltin) (fun '(typ, fmt) => bind (request imports "" n) (fun _ => ret (set_ref (typed typ fmt) (Some (type_ref_link "" n)))))
        | _ =>
            match obj_of (meant t) with
            | Some (OHere, n) => bind (request imports "" n) (fun _ => ret (ref_to "" n))
            | Some (OPkg p, n) => let path := non_vendor_path p in bind (request imports path n) (fun _ => ret (ref_to path n))
            | Some (OUniverse, _) | None => Panic
            end
        end = Done b reqs []) by (destruct t; [congruence|exact H..]). clear H.
    destruct (meant t) as [|k bn|o m u|o m u|] eqn:Em; [discriminate| | | |discriminate].
    - destruct (builtin_to_type allow_dangerous k) as [[typ fmt]|] eqn:Eb; [|destruct (negb _) in H'; discriminate]. pose proof (json_of_builtin _ _ _ _ Eb) as J. cbn [bind ret] in H'.
      destruct (String.eqb bn n) eqn:En; cbn in H'.
      + apply String.eqb_eq in En. subst bn. injection H' as <- <-. left. exists k, typ, fmt. auto.
      + apply String.eqb_neq in En. injection H' as <- <-. right. left. exists k, bn, typ, fmt. auto.
    - right. right. cbn [obj_of] in H'. destruct o as [| |p]; [discriminate| |].
      + cbn in H'. injection H' as <- <-. exists OHere, m, u, "". auto.
      + cbn zeta in H'. unfold request in H'. destruct (_ || _) eqn:Ei in H'; [|discriminate]. cbn in H'. injection H' as <- <-. exists (OPkg p), m, u, (non_vendor_path p). auto.
    - right. right. cbn [obj_of] in H'. destruct o as [| |p]; [discriminate| |].
      + cbn in H'. injection H' as <- <-. exists OHere, m, u, "". auto.
      + cbn zeta in H'. unfold request in H'. destruct (_ || _) eqn:Ei in H'; [|discriminate]. cbn in H'. injection H' as <- <-. exists (OPkg p), m, u, (non_vendor_path p). auto.
  Qed.
  Lemma named_done t b reqs : named imports t = Done b reqs [] ->
    exists o m u p, (t = TNamed o m u \/ t = TAlias o m u) /\ b = ref_to p m /\ reqs = [(p, m)] /\ home pkg o = Some (if String.eqb p "" then pkg else p).
  Proof.
    unfold named. destruct t as [|k bn|o m u|o m u|]; try discriminate; cbn [obj_of]; destruct o as [| |p]; try discriminate; cbn zeta; unfold request; destruct (_ || _); try discriminate;
      cbn; intros [= <- <-]; exists (OPkg p), m, u, (non_vendor_path p); auto.
  Qed.

  Definition means_expr (e : texpr) : Prop := forall b reqs, TTS Panic Panic "" [] e = Done b reqs [] -> refs_are reqs ->
    forall d l li own its s1 s v, one_list l -> one_list li -> (forall m, In m own <-> In m (map snd l)) -> (forall m, In m its <-> In m (map snd li)) ->
    (forall ms, ms = own \/ ms = its -> ~ In (MExclMax true) ms /\ ~ In (MExclMin true) ms) ->
    apply_all l (set_desc b d) = (s1, []) -> apply_items li s1 = (s, []) -> null_free v = true -> (valid OR s v = true <-> FITS pkg e own its v).

  Lemma post_nil x b reqs : bind x (fun s => with_markers order sorted [] (set_desc s "")) = Done b reqs [] -> exists b0, x = Done b0 reqs [] /\ b = set_desc b0 "".
  Proof. apply (post_done order sorted Ho Hs _ _ _ _ _ unmarked_nil). Qed.
  Lemma desc_desc s d d' : set_desc (set_desc s d) d' = set_desc s d'.
  Proof. destruct s. reflexivity. Qed.
  Lemma one_nil : one_list []. Proof. split; [constructor|exact I]. Qed.
  Lemma fits_ident n t b reqs : local_named imports allow_dangerous n t = Done b reqs [] -> refs_are reqs ->
    forall d l own its s1 v, one_list l -> (forall m, In m own <-> In m (map snd l)) -> ~ In (MExclMax true) own /\ ~ In (MExclMin true) own -> apply_all l (set_desc b d) = (s1, []) -> null_free v = true ->
    (valid OR s1 v = true <-> FITS pkg (EIdent n t) own its v).
  Proof.
    intros H R d l own its s1 v L M [Nx Nn] E Nv. pose proof (null_free_not _ Nv) as Nn'. apply local_done in H as [(k & typ & fmt & Em & J & -> & ->)|[(k & bn & typ & fmt & Em & En & J & -> & ->)|(o & m & u & p & Em & -> & -> & Hh)]].
    - rewrite (applied_valid OR l _ s1 own d typ fmt None [] v E eq_refl L M Nx Nn Nn'). split.
      + intros (K & _). eapply fits_basic; eauto.
      + intros F. assert (K : keeps O own typ fmt v).
        { inversion F as [? ? ? k' typ' fmt' ? ? ? Em' J' K|? ? ? k' b' typ' fmt' ? ? ? Em' Nb J' K C|? ? ? o m u p ? ? ? Em' Hh C K| | | | | ]; subst.
          - assert (k' = k) by congruence. subst k'. rewrite J in J'. injection J' as <- <-. exact K.
          - exfalso. congruence.
          - exfalso. destruct Em'; congruence. }
        split; [exact K|]. repeat split; try reflexivity; destruct v; reflexivity.
    - rewrite (applied_valid OR l _ s1 own d typ fmt (Some (type_ref_link "" n)) [] v E eq_refl L M Nx Nn Nn').
      assert (Rf : ref_ok OR (Some (type_ref_link "" n)) v = true <-> CONF (pkg, n) v) by (apply (R "" n v (or_introl eq_refl) Nv)). rewrite Rf. split.
      + intros (K & C & _). eapply fits_alias; eauto.
      + intros F. assert (K : keeps O own typ fmt v /\ CONF (pkg, n) v).
        { inversion F as [? ? ? k' typ' fmt' ? ? ? Em' J' K|? ? ? k' b' typ' fmt' ? ? ? Em' Nb J' K C|? ? ? o m u p ? ? ? Em' Hh C K| | | | | ]; subst.
          - exfalso. congruence.
          - assert (k' = k) by congruence. subst k'. rewrite J in J'. injection J' as <- <-. auto.
          - exfalso. destruct Em'; congruence. }
        destruct K as [K C]. split; [exact K|]. split; [exact C|]. repeat split; try reflexivity; destruct v; reflexivity.
    - rewrite (applied_valid OR l _ s1 own d "" "" (Some (type_ref_link p m)) [] v E eq_refl L M Nx Nn Nn').
      assert (Rf : ref_ok OR (Some (type_ref_link p m)) v = true <-> CONF (if String.eqb p "" then pkg else p, m) v) by (apply (R p m v (or_introl eq_refl) Nv)). rewrite Rf. split.
      + intros (K & C & _). eapply fits_named; eauto.
      + intros F. assert (K : keeps O own "" "" v /\ CONF (if String.eqb p "" then pkg else p, m) v).
        { inversion F as [? ? ? k' typ' fmt' ? ? ? Em' J' K|? ? ? k' b' typ' fmt' ? ? ? Em' Nb J' K C|? ? ? o' m' u' p' ? ? ? Em' Hh' C K| | | | | ]; subst.
          - exfalso. destruct Em; congruence.
          - exfalso. destruct Em; congruence.
          - assert (o' = o /\ m' = m) as [-> ->] by (destruct Em as [Em|Em], Em' as [Em'|Em']; rewrite Em in Em'; try discriminate; injection Em'; auto). rewrite Hh in Hh'. injection Hh' as <-. auto. }
        destruct K as [K C]. split; [exact K|]. split; [exact C|]. repeat split; try reflexivity; destruct v; reflexivity.
  Qed.
  Lemma fits_sel t b reqs : named imports t = Done b reqs [] -> refs_are reqs ->
    forall d l own its s1 v, one_list l -> (forall m, In m own <-> In m (map snd l)) -> ~ In (MExclMax true) own /\ ~ In (MExclMin true) own -> apply_all l (set_desc b d) = (s1, []) -> null_free v = true ->
    (valid OR s1 v = true <-> FITS pkg (ESel t) own its v).
  Proof.
    intros H R d l own its s1 v L M [Nx Nn] E Nv. pose proof (null_free_not _ Nv) as Nn'. apply named_done in H as (o & m & u & p & Em & -> & -> & Hh).
    rewrite (applied_valid OR l _ s1 own d "" "" (Some (type_ref_link p m)) [] v E eq_refl L M Nx Nn Nn').
    assert (Rf : ref_ok OR (Some (type_ref_link p m)) v = true <-> CONF (if String.eqb p "" then pkg else p, m) v) by (apply (R p m v (or_introl eq_refl) Nv)). rewrite Rf. split.
    + intros (K & C & _). eapply fits_selected; eauto.
    + intros F. assert (K : keeps O own "" "" v /\ CONF (if String.eqb p "" then pkg else p, m) v).
      { inversion F as [| | |? ? o' m' u' p' ? ? ? Em' Hh' C K| | | | ]; subst.
        assert (o' = o /\ m' = m) as [-> ->] by (destruct Em as [Em|Em], Em' as [Em'|Em']; rewrite Em in Em'; try discriminate; injection Em'; auto). rewrite Hh in Hh'. injection Hh' as <-. auto. }
      destruct K as [K C]. split; [exact K|]. split; [exact C|]. repeat split; try reflexivity; destruct v; reflexivity.
  Qed.
  Lemma fits_arr sz e : means_expr e -> forall b reqs, (if is_byte_type (type_of e) && negb sz then ret (typed "string" "byte")
                     else bind (TTS Panic Panic "" [] e) (fun items => ret (set_items (set_type schema0 "array") (Some (Some items, []))))) = Done b reqs [] -> refs_are reqs ->
    forall d l li own its s1 s v, one_list l -> one_list li -> (forall m, In m own <-> In m (map snd l)) -> (forall m, In m its <-> In m (map snd li)) ->
    (forall ms, ms = own \/ ms = its -> ~ In (MExclMax true) ms /\ ~ In (MExclMin true) ms) ->
    apply_all l (set_desc b d) = (s1, []) -> apply_items li s1 = (s, []) -> null_free v = true -> (valid OR s v = true <-> FITS pkg (EArray sz e) own its v).
  Proof.
    intros IH b reqs H R d l li own its s1 s v L Li M Mi X E Ei Nv. pose proof (null_free_not _ Nv) as Nn'. destruct (X own (or_introl eq_refl)) as [Nx Nn].
    pose proof (apply_all_unchanged l (set_desc b d)) as U. rewrite E in U. cbn [fst] in U.
    destruct (is_byte_type (type_of e) && negb sz) eqn:By.
    - injection H as <- <-. apply andb_true_iff in By as [By Sz]. apply negb_true_iff in Sz. subst sz.
      assert (I1 : s_items s1 = None) by (symmetry; apply U). destruct (items_none _ _ _ I1 Ei) as [-> ->].
      rewrite (applied_valid OR l _ s1 own d "string" "byte" None [] v E eq_refl L M Nx Nn Nn'). split.
      + intros (K & _). apply fits_bytes; assumption.
      + intros F. assert (K : keeps O own "string" "byte" v) by (inversion F as [| | | | |? ? ? ? ? ? B| | ]; subst; [assumption|destruct B; congruence]).
        split; [exact K|]. repeat split; try reflexivity; destruct v; reflexivity.
    - assert (By' : is_byte_type (type_of e) = false \/ sz = true) by (destruct (is_byte_type _), sz; auto; discriminate). clear By.
      apply bind_clean in H as (it & r1 & r2 & H & H2 & ->). injection H2 as <- <-. rewrite app_nil_r in R.
      assert (I1 : s_items s1 = Some (Some it, [])) by (symmetry; apply U).
      (* the items *)
      assert (G : exists it', apply_all li it = (it', []) /\ s = set_items s1 (Some (Some it', []))).
      { rewrite items_all, I1 in Ei. destruct (is_type s1 "array").
        - destruct (apply_all li it) as [it' e'] eqn:Ea. cbn in Ei. injection Ei as <- ->. exists it'. auto.
        - destruct li; [|discriminate]. injection Ei as <-. exists it. split; [reflexivity|]. clear -I1. destruct s1. cbn in I1. subst. reflexivity. }
      destruct G as (it' & Ea & ->).
      assert (D : set_desc it "" = it).
      { destruct e as [n t|t|z e'|kk e'|e'| |]; cbn [type_to_schema] in H; try discriminate; apply post_nil in H as (b0 & _ & ->); apply desc_desc. }
      assert (G : forall x, null_free x = true -> (valid OR it' x = true <-> FITS pkg e its [] x)).
      { intros x Nx'. refine (IH it r1 H R "" li [] its [] it' it' x Li one_nil Mi (fun m => conj (fun h => h) (fun h => h)) _ _ eq_refl Nx').
        - intros ms [->| ->]; [apply X; auto|split; intros []].
        - rewrite D. exact Ea. }
      assert (V : valid OR (set_items s1 (Some (Some it', []))) v = true <-> valid OR (set_items s1 None) v = true /\ forall arr x, v = JArr arr -> In x arr -> valid OR it' x = true).
      { destruct s1. cbn [set_items valid]. rewrite !andb_true_iff. rewrite !on_arr_iff. split.
        - intros ((((((K1 & K2) & K3) & K4) & K5) & K6) & K7). repeat split; auto. intros arr x Ev Hx. specialize (K2 arr Ev). rewrite forallb_forall in K2. auto.
        - intros (((((((K1 & K2) & K3) & K4) & K5) & K6) & K7) & K8). repeat split; auto. intros arr Ev. apply forallb_forall. intros x Hx. eauto. }
      rewrite V. clear V.
      assert (E' : apply_all l (set_desc (set_type schema0 "array") d) = (set_items s1 None, []) ).
      { revert E. clear. change (set_desc (set_type schema0 "array") d) with (set_items (set_desc (set_items (set_type schema0 "array") (Some (Some it, []))) d) None).
        generalize (set_desc (set_items (set_type schema0 "array") (Some (Some it, []))) d) as s0. revert s1.
        induction l as [|[n m] l IH]; intros s1 s0 H; [injection H as <-; reflexivity|]. rewrite apply_all_cons in *. cbn [fst snd] in *.
        assert (A1 : ok m (set_items s0 None) = ok m s0) by (apply ok_reads; repeat split).
        assert (A2 : upd m (set_items s0 None) = set_items (upd m s0) None).
        { pose proof (apply_ok_upd m s0) as B0. pose proof (apply_ok_upd m (set_items s0 None)) as B1. rewrite apply_act in B0, B1. rewrite A1 in B1. destruct (ok m s0).
          - injection B0 as <-. injection B1 as <-. destruct s0; destruct m; try reflexivity; destruct v; reflexivity.
          - injection B0 as <-. injection B1 as <-. reflexivity. }
        rewrite A1, A2. destruct (ok m s0); [|discriminate]. injection H as <- H2. rewrite (IH (fst (apply_all l (upd m s0))) (upd m s0)); [reflexivity|]. destruct (apply_all l (upd m s0)); cbn in *; congruence. }
      rewrite (applied_valid OR l _ _ own d "array" "" None [] v E' eq_refl L M Nx Nn Nn'). split.
      + intros ((K & _) & It). apply fits_array; [exact By'|exact K|]. intros arr x -> Hx. apply G; [|eauto]. cbn in Nv. rewrite forallb_forall in Nv. auto.
      + intros F. assert (K : keeps O own "array" "" v /\ forall arr x, v = JArr arr -> In x arr -> FITS pkg e its [] x).
        { inversion F; subst; [|split; assumption]. destruct By'; congruence. }
        destruct K as [K It]. split; [split; [exact K|repeat split; try reflexivity; destruct v; reflexivity]|]. intros arr x -> Hx. apply G; [|eauto]. cbn in Nv. rewrite forallb_forall in Nv. auto.
  Qed.

  Lemma expr_fits e : means_expr e.
  Proof.
    induction e as [n t|t|sz e IH|key e IH|e IH| |]; intros b reqs H; cbn [type_to_schema] in H.
    - apply post_nil in H as (b0 & H & ->). intros R d l li own its s1 s v L Li M Mi X E Ei Nv. rewrite desc_desc in E.
      assert (I1 : s_items s1 = None).
      { pose proof (apply_all_unchanged l (set_desc b0 d)) as U. rewrite E in U. cbn [fst] in U. symmetry. transitivity (s_items (set_desc b0 d)); [|apply U].
        apply local_done in H as [(k & typ & fmt & Em & J & -> & ->)|[(k & bn & typ & fmt & Em & En & J & -> & ->)|(o & m & u & p & Em & -> & -> & Hh)]]; reflexivity. }
      destruct (items_none _ _ _ I1 Ei) as [-> ->]. refine (fits_ident n t b0 reqs H R d l own its s1 v L M (X own (or_introl eq_refl)) E Nv).
    - apply post_nil in H as (b0 & H & ->). intros R d l li own its s1 s v L Li M Mi X E Ei Nv. rewrite desc_desc in E.
      assert (I1 : s_items s1 = None).
      { pose proof (apply_all_unchanged l (set_desc b0 d)) as U. rewrite E in U. cbn [fst] in U. symmetry. transitivity (s_items (set_desc b0 d)); [|apply U].
        apply named_done in H as (o & m & u & p & Em & -> & -> & Hh); reflexivity. }
      destruct (items_none _ _ _ I1 Ei) as [-> ->]. refine (fits_sel t b0 reqs H R d l own its s1 v L M (X own (or_introl eq_refl)) E Nv).
    - apply post_nil in H as (b0 & H & ->). intros R d l li own its s1 s v L Li M Mi X E Ei Nv. rewrite desc_desc in E. exact (fits_arr sz e IH b0 reqs H R d l li own its s1 s v L Li M Mi X E Ei Nv).
    - apply post_nil in H as (b0 & H & ->). destruct (negb (string_key key)); [discriminate|].
      assert (K : exists w x, (match e with
           | EIdent name t => w = local_named imports allow_dangerous name t
           | ESel t => w = named imports t
           | EArray sized elt =>
               w = (if is_byte_type (type_of elt) && negb sized then ret (typed "string" "byte")
                     else bind (TTS Panic Panic "" [] elt) (fun items => ret (set_items (set_type schema0 "array") (Some (Some items, [])))))
           | EStar _ | EMap _ _ => w = TTS Panic Panic "" [] e
           | EStruct | EOther => False
           end) /\ w = Done x reqs [] /\ b0 = set_addl (set_type schema0 "object") (Some (true, Some x))).
      { destruct e; try discriminate; apply bind_clean in H as (x & r1 & r2 & H & H2 & ->); injection H2 as <- <-; rewrite app_nil_r; eexists; exists x; (split; [reflexivity|auto]). }
      destruct K as (w & x & W & Hw & ->). clear H. intros R d l li own its s1 s v L Li M Mi X E Ei Nv. rewrite desc_desc in E. pose proof (null_free_not _ Nv) as Nn'. destruct (X own (or_introl eq_refl)) as [Nx Nn].
      pose proof (apply_all_unchanged l (set_desc (set_addl (set_type schema0 "object") (Some (true, Some x))) d)) as U. rewrite E in U. cbn [fst] in U.
      assert (I1 : s_items s1 = None) by (symmetry; apply U). destruct (items_none _ _ _ I1 Ei) as [-> ->].
      destruct (map_value order sorted Ho Hs allow_dangerous (fun _ => imports) (fun _ => OR) "" e w W x reqs Hw) as (x' & Hx' & Vx).
      assert (G : forall y, null_free y = true -> (valid OR x y = true <-> FITS pkg e [] [] y)).
      { intros y Ny. rewrite Vx. rewrite <- (valid_desc OR x' ""). refine (IH x' reqs Hx' R "" [] [] [] [] _ _ y one_nil one_nil (fun m => conj (fun h => h) (fun h => h)) (fun m => conj (fun h => h) (fun h => h)) _ eq_refl eq_refl Ny).
        intros ms [->| ->]; split; intros []. }
      assert (Va : valid OR (with_kw (set_desc (set_addl (set_type schema0 "object") (Some (true, Some x))) d) kw0) v = true <-> forall o k y, v = JObj o -> In (k, y) o -> valid OR x y = true).
      { cbn. replace (kw_ok OR kw0 v) with true by (destruct v; reflexivity). destruct v; cbn; try (split; [intros _ ? ? ? [=]|reflexivity]). rewrite andb_true_r. rewrite forallb_forall. split.
        - intros Hf o k y [= <-] Hin. exact (Hf (k, y) Hin).
        - intros Hf [k y] Hin. exact (Hf l0 k y eq_refl Hin). }
      rewrite (applied_valid OR l _ s1 own d "object" "" None [] v E eq_refl L M Nx Nn Nn'). rewrite Va. split.
      + intros (K & _ & _ & Hv). apply fits_map; [exact K|]. intros o k y -> Hin. apply G; [|eauto]. cbn in Nv. rewrite forallb_forall in Nv. exact (Nv (k, y) Hin).
      + intros F. assert (K : keeps O own "object" "" v /\ forall o k y, v = JObj o -> In (k, y) o -> FITS pkg e [] [] y) by (inversion F; subst; split; assumption).
        destruct K as [K It]. split; [exact K|]. split; [reflexivity|]. split; [destruct v; reflexivity|]. intros o k y -> Hin. apply G; [|eauto]. cbn in Nv. rewrite forallb_forall in Nv. exact (Nv (k, y) Hin).
    - apply post_nil in H as (b0 & H & ->). intros R d l li own its s1 s v L Li M Mi X E Ei Nv. rewrite desc_desc in E. rewrite (IH b0 reqs H R d l li own its s1 s v L Li M Mi X E Ei Nv). split.
      + apply fits_star.
      + intros F. inversion F; subst; assumption.
    - discriminate.
    - discriminate.
  Qed.
End Expr.
