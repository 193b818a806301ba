(** * C56: controller-gen's exit code says whether everything was generated *)

From Coq Require Import List String Ascii Bool Arith Lia.
From Verif Require Import GoLib RegistryModel RegistrySpec GenallModel GenallSpec GenallProofs GenallProps MainModel.
Import ListNotations.
Open Scope string_scope.
Open Scope list_scope.

Section Main.
Variables G D : Type.
Variable parse : D -> string -> option (optval G).
Variable reg : registry D.
Hypothesis rule_defs : forall raw n r, means G D parse reg raw (n, VOut r) -> default_name n \/ exists g, gen_name n g.
Variable o : list (string * rule) -> list (string * rule).
Hypothesis any_o : is_order o.
Variable pjoin : string -> string -> string.
Variable o1 : list (string * nat) -> list (string * nat).
Hypothesis any_o1 : is_order o1.
Variable o2 : list (nat * rule) -> list (nat * rule).
Hypothesis any_o2 : is_order o2.
Variable W pkg : Type.
Variable act : G -> option rule -> bool -> W -> W * option string.
Variable needs_check : G -> bool.
Variable errors_of : W -> pkg -> list bool.
Variable visit : W -> list pkg -> list pkg.
Variable imports : W -> pkg -> list pkg.
Hypothesis visits : forall w roots p, In p (visit w roots) <-> exists r, In r roots /\ reaches (imports w) r p.
Variable load : list string -> list string -> W -> W * option (list pkg).
Variable registers : list G -> bool.
Notation main := (main G D parse reg o pjoin o1 o2 W pkg act needs_check errors_of visit load registers).
Notation means := (means G D parse reg).

(** ** Vocabulary *)

(** Neither help nor the version nor the markers are asked for. *)
Record normal (f : flags) : Prop := { n_help : f_help f = false; n_version : f_version f = false; n_h : f_h f = 0; n_w : f_w f = 0 }.

(** The rule for a generator by its name: its own, or the default that is given, or the directory of its name in config. *)
Definition rule_for (nvs : list (string * optval G)) (n : string) (r : rule) : Prop :=
  rule_given G nvs n r \/ (no_rule_given G nvs n /\ (default_given G nvs r \/ (no_default_given G nvs /\ r = Artifacts (pjoin "config" n) ""))).

(** The run that the options ask for: the roots of all paths are loaded with the build tags, and the generators are called in order, each
    with its rule. *)
Record asked (f : flags) (w : W) (nvs : list (string * optval G)) (roots : list pkg) (es : list (option string)) (w' : W) : Prop := {
  as_options : Forall2 means (f_options f) nvs;
  as_accepted : acceptable G nvs;
  as_some : gens_of G nvs <> [];
  as_registers : registers (map snd (gens_of G nvs)) = true;
  as_run : exists w1 rule_of, load (f_tags f) (paths_of G nvs) w = (w1, Some roots) /\
    (forall i n g r, nth_error (gens_of G nvs) i = Some (n, g) -> (rule_of i = Some r <-> rule_for nvs n r)) /\
    called G W act needs_check rule_of (combine (seq 0 (List.length (gens_of G nvs))) (map snd (gens_of G nvs))) w1 es w' }.

(** No generator fails, and no package that the roots reach has errors other than of types. *)
Definition well (w' : W) (roots : list pkg) (es : list (option string)) : Prop :=
  Forall (eq None) es /\ forall r p, In r roots -> reaches (imports w') r p -> ~ In false (errors_of w' p).

(** ** Proofs *)

Lemma options_meaning opts p : proto_from_options G D parse o reg opts = Ok p -> exists nvs, Forall2 means opts nvs /\ acceptable G nvs /\ p_gens p = map snd (gens_of G nvs) /\ p_paths p = paths_of G nvs.
Proof.
  intros E. destruct (proj1 (options_accepted G D parse reg rule_defs o opts any_o) (ex_intro _ p E)) as (nvs & F & A). exists nvs.
  destruct (options_generators G D parse reg rule_defs o opts p nvs E F) as [X Y]. auto.
Qed.

Lemma means_fun raw a b : means raw a -> means raw b -> a = b.
Proof.
  intros (t & d & [[-> A]|(-> & A & _)] & L & P & N) (t' & d' & [[-> A']|(-> & A' & _)] & L' & P' & N'); try congruence;
    destruct a, b; cbn in *; congruence.
Qed.
Lemma meanings_fun opts nvs nvs' : Forall2 means opts nvs -> Forall2 means opts nvs' -> nvs = nvs'.
Proof.
  intros F. revert nvs'. induction F as [|raw a opts nvs M F IH]; intros nvs' F'; inversion F'; subst; [reflexivity|]. f_equal; [eapply means_fun; eassumption|auto].
Qed.

Lemma called_ext f f' l w es w' : (forall i g, In (i, g) l -> f i = f' i) -> called G W act needs_check f l w es w' -> called G W act needs_check f' l w es w'.
Proof.
  intros E C. revert E. induction C as [w|i g rest w w1 e es w' A C IH]; intros E; [constructor|]. apply called_cons with w1.
  - rewrite <- (E i g); cbn; auto.
  - apply IH. intros j h I. apply (E j h). cbn. auto.
Qed.

Lemma combine_seq_in {A} (l : list A) k i g : In (i, g) (combine (seq k (List.length l)) l) -> nth_error l (i - k) = Some g /\ k <= i.
Proof.
  revert k. induction l as [|x l IH]; intros k I; [destruct I|]. cbn in I. destruct I as [[= -> ->]|I].
  - rewrite Nat.sub_diag. auto.
  - apply IH in I. destruct I as [E L]. split; [|lia]. replace (i - k) with (S (i - S k)) by lia. exact E.
Qed.

(** What a normal run does, if the options ask for one. *)
Lemma normal_run f w nvs roots es w' : normal f -> asked f w nvs roots es w' ->
  exists b : bool, main (inr f) w = (w', map PGenerator (flat_map (fun e => match e with Some x => [x] | None => [] end) es) ++ (if b then [PError; PHint] else []), if b then 1 else 0) /\
    (b = false <-> well w' roots es).
Proof.
  intros N [Opt Acc Som Reg (w1 & rule_of & Lo & Ru & Ca)].
  destruct (proj2 (options_accepted G D parse reg rule_defs o (f_options f) any_o)) as (p & Ep); [exists nvs; auto|].
  destruct (options_generators G D parse reg rule_defs o _ p nvs Ep Opt) as [Eg Epa].
  unfold MainModel.main, run_e, from_options. rewrite (n_help _ N), (n_version _ N), (n_h _ N), (n_w _ N). cbn [Nat.ltb Nat.leb].
  rewrite Ep, Epa, Lo, Eg, Reg. cbv beta iota. rewrite ?Eg.
  assert (Ge : map snd (gens_of G nvs) <> []) by (intros E; apply Som; now apply map_eq_nil in E).
  assert (Go : forall (A : Type) (x y : A), match map snd (gens_of G nvs) with [] => x | _ :: _ => y end = y) by (intros; now destruct (map snd (gens_of G nvs))).
  rewrite Go.
  set (rs := runtime_rules G pjoin o1 o2 p).
  assert (Ca' : called G W act needs_check (for_generator rs) (combine (seq 0 (List.length (gens_of G nvs))) (map snd (gens_of G nvs))) w1 es w').
  { apply (called_ext rule_of); [|exact Ca]. intros i g I. rewrite <- (map_length snd (gens_of G nvs)) in I. apply combine_seq_in in I. destruct I as [I _]. rewrite Nat.sub_0_r in I.
    rewrite nth_error_map in I. destruct (nth_error (gens_of G nvs) i) as [[n g']|] eqn:E; [|discriminate]. cbn in I. injection I as ->.
    assert (X : forall r, rule_of i = Some r <-> for_generator rs i = Some r).
    { intros r. rewrite (Ru i n g r E). symmetry. exact (output_rule G D parse reg rule_defs o pjoin o1 o2 (f_options f) p nvs i n g r any_o any_o1 any_o2 Ep Opt E). }
    destruct (rule_of i) as [r|] eqn:R; [symmetry; apply X; reflexivity|]. destruct (for_generator rs i) as [r|] eqn:R'; [|reflexivity]. now apply X. }
  rewrite map_length. set (gens := combine _ _) in *.
  assert (Ne : gens <> []). { subst gens. destruct (gens_of G nvs); [contradiction|discriminate]. }
  destruct (run_calls G W act needs_check pkg errors_of visit imports visits rs gens roots w1 Ne) as (es' & w'' & b & Ca'' & Er & B).
  destruct (run_calls_unique G W act needs_check _ _ _ _ _ _ _ Ca' Ca'') as [<- <-].
  rewrite Er. exists b. split; [destruct b; [reflexivity|now rewrite app_nil_r]|].
  assert (B' : b = true <-> ~ well w' roots es).
  { rewrite B. unfold well. split.
    - intros [(e & I)|(r & p' & I & R & X)] [F H]; [rewrite Forall_forall in F; apply F in I; discriminate|exact (H r p' I R X)].
    - intros H. destruct (existsb (fun e => match e with Some _ => true | None => false end) es) eqn:Ex.
      + apply existsb_exists in Ex. destruct Ex as ([e|] & I & X); [|discriminate]. left. eauto.
      + right. destruct (print_errors W pkg errors_of visit w' roots) eqn:Pe.
        * unfold print_errors in Pe. apply existsb_exists in Pe. destruct Pe as (p' & I & X). apply existsb_exists in X. destruct X as (y & Y & Z). apply visits in I. destruct I as (r & I & R).
          exists r, p'. split; auto. split; auto. now destruct y.
        * exfalso. apply H. split.
          -- apply Forall_forall. intros [e|] I; [|reflexivity]. exfalso. assert (T : existsb (fun e => match e with Some _ => true | None => false end) es = true) by (apply existsb_exists; exists (Some e); auto). congruence.
          -- intros r p' I R X. unfold print_errors in Pe. assert (T : existsb (fun p0 => existsb negb (errors_of w' p0)) (visit w' roots) = true); [|congruence].
             apply existsb_exists. exists p'. split; [apply visits; eauto|]. apply existsb_exists. exists false. auto. }
  destruct b; split; intros H; auto; try discriminate.
  - exfalso. now apply B'.
  - destruct (existsb (fun e => match e with Some _ => true | None => false end) es) eqn:Ex.
    + exfalso. apply existsb_exists in Ex. destruct Ex as ([e|] & I & X); [|discriminate]. assert (T : false = true) by (apply B; left; eauto). discriminate.
    + split.
      * apply Forall_forall. intros [e|] I; [|reflexivity]. exfalso. assert (T : existsb (fun e => match e with Some _ => true | None => false end) es = true) by (apply existsb_exists; exists (Some e); auto). congruence.
      * intros r p' I R X. assert (T : false = true) by (apply B; right; exists r, p'; auto). discriminate.
Qed.

(** Otherwise there is an error with the usage, or a panic; and no generator is called. *)
Lemma normal_else f w : normal f ->
  (exists nvs roots es w', asked f w nvs roots es w') \/
  (exists w', (main (inr f) w = (w', [PError; PUsage (Some Summary); PHint], 1) \/ main (inr f) w = (w', [], 2) /\ In "" (f_options f)) /\
     (w' = w \/ exists nvs, Forall2 means (f_options f) nvs /\ acceptable G nvs /\ w' = fst (load (f_tags f) (paths_of G nvs) w)) /\
     forall nvs roots es w', ~ asked f w nvs roots es w').
Proof.
  intros N. destruct (proto_from_options G D parse o reg (f_options f)) as [p| |] eqn:Ep.
  - destruct (options_meaning _ _ Ep) as (nvs & F & A & Eg & Epa).
    assert (Same : forall nvs' roots es w', asked f w nvs' roots es w' -> nvs' = nvs) by (intros nvs' roots es w' [Opt _ _ _ _]; eapply meanings_fun; eassumption).
    destruct (load (f_tags f) (p_paths p) w) as [w1 [roots|]] eqn:Lo.
    + destruct (registers (p_gens p)) eqn:Reg.
      * destruct (p_gens p) as [|g gs] eqn:Gs.
        -- right. exists w1. split; [left|split].
           ++ unfold MainModel.main, run_e, from_options. rewrite (n_help _ N), (n_version _ N), (n_h _ N), (n_w _ N). cbn [Nat.ltb Nat.leb]. rewrite Ep, Lo, Gs, Reg, Gs. reflexivity.
           ++ right. exists nvs. rewrite <- Epa, Lo. auto.
           ++ intros nvs' roots' es w' H. assert (X := Same _ _ _ _ H). subst nvs'. apply (as_some _ _ _ _ _ _ H). symmetry in Eg. now apply map_eq_nil in Eg.
        -- left. rewrite <- Gs in *.
           assert (Ne : combine (seq 0 (List.length (gens_of G nvs))) (map snd (gens_of G nvs)) <> []) by (rewrite Gs in Eg; destruct (gens_of G nvs); discriminate).
           destruct (run_calls G W act needs_check pkg errors_of visit imports visits (runtime_rules G pjoin o1 o2 p) _ roots w1 Ne) as (es & w' & b & Ca & _ & _).
           exists nvs, roots, es, w'. split; auto.
           ++ intros E. rewrite Gs, E in Eg. discriminate.
           ++ now rewrite <- Eg.
           ++ exists w1, (for_generator (runtime_rules G pjoin o1 o2 p)). rewrite <- Epa. split; [exact Lo|]. split; [|exact Ca].
              intros i n g' r I. exact (output_rule G D parse reg rule_defs o pjoin o1 o2 (f_options f) p nvs i n g' r any_o any_o1 any_o2 Ep F I).
      * right. exists w1. split; [left|split].
        -- unfold MainModel.main, run_e, from_options. rewrite (n_help _ N), (n_version _ N), (n_h _ N), (n_w _ N). cbn [Nat.ltb Nat.leb]. rewrite Ep, Lo, Reg. reflexivity.
        -- right. exists nvs. rewrite <- Epa, Lo. auto.
        -- intros nvs' roots' es w' H. assert (X := Same _ _ _ _ H). subst nvs'. pose proof (as_registers _ _ _ _ _ _ H). congruence.
    + right. exists w1. split; [left|split].
      -- unfold MainModel.main, run_e, from_options. rewrite (n_help _ N), (n_version _ N), (n_h _ N), (n_w _ N). cbn [Nat.ltb Nat.leb]. rewrite Ep, Lo. reflexivity.
      -- right. exists nvs. rewrite <- Epa, Lo. auto.
      -- intros nvs' roots' es w' H. assert (X := Same _ _ _ _ H). subst nvs'. destruct (as_run _ _ _ _ _ _ H) as (w1' & ? & Lo' & _). rewrite Epa in Lo. congruence.
  - right. exists w. split; [left|split; [auto|]].
    + unfold MainModel.main, run_e, from_options. rewrite (n_help _ N), (n_version _ N), (n_h _ N), (n_w _ N). cbn [Nat.ltb Nat.leb]. rewrite Ep. reflexivity.
    + intros nvs roots es w' H. destruct (proj2 (options_accepted G D parse reg rule_defs o (f_options f) any_o)) as (p & Ep'); [|congruence].
      exists nvs. split; [exact (as_options _ _ _ _ _ _ H)|exact (as_accepted _ _ _ _ _ _ H)].
  - right. exists w. split; [right|split; [auto|]].
    + split.
      * unfold MainModel.main, run_e, from_options. rewrite (n_help _ N), (n_version _ N), (n_h _ N), (n_w _ N). cbn [Nat.ltb Nat.leb]. rewrite Ep. reflexivity.
      * destruct (in_dec string_dec "" (f_options f)) as [I|I]; [exact I|]. exfalso. apply (options_no_panic G D parse reg rule_defs o (f_options f)); auto. intros raw R ->. auto.
    + intros nvs roots es w' H. destruct (proj2 (options_accepted G D parse reg rule_defs o (f_options f) any_o)) as (p & Ep'); [|congruence].
      exists nvs. split; [exact (as_options _ _ _ _ _ _ H)|exact (as_accepted _ _ _ _ _ _ H)].
Qed.

(** ** Theorems *)

(** The exit code is 0 if and only if the options ask for a run, all of its generators succeed and the packages have no errors but of types. *)
Theorem main_success f w w' : normal f ->
  ((exists es, main (inr f) w = (w', es, 0)) <-> exists nvs roots rs, asked f w nvs roots rs w' /\ well w' roots rs).
Proof.
  intros N. split.
  - intros (es & E). destruct (normal_else f w N) as [(nvs & roots & rs & w2 & A)|(w2 & [E'|[E' _]] & _)]; [|congruence|congruence].
    destruct (normal_run _ _ _ _ _ _ N A) as (b & E' & B). rewrite E in E'. injection E' as <- _ X. destruct b; [discriminate|]. exists nvs, roots, rs. split; [exact A|]. now apply B.
  - intros (nvs & roots & rs & A & V). destruct (normal_run _ _ _ _ _ _ N A) as (b & E' & B). apply B in V. subst b. eauto.
Qed.

(** If the options ask for a run, the world is as it leaves it, whatever fails; each error is printed, in order, and never the usage. *)
Theorem main_run f w nvs roots rs w' : normal f -> asked f w nvs roots rs w' ->
  exists es code, main (inr f) w = (w', es, code) /\ (code = 0 /\ well w' roots rs \/ code = 1 /\ ~ well w' roots rs) /\
    (forall l, ~ In (PUsage l) es) /\ flat_map (fun e => match e with PGenerator t => [t] | _ => [] end) es = flat_map (fun r => match r with Some t => [t] | None => [] end) rs.
Proof.
  intros N A. destruct (normal_run _ _ _ _ _ _ N A) as (b & E & B). eexists _, _. split; [exact E|]. split; [|split].
  - destruct b; [right|left]; split; auto; [|now apply B]. intros V. apply B in V. discriminate.
  - intros l I. apply in_app_or in I. destruct I as [I|I]; [apply in_map_iff in I; destruct I as (x & X & _); discriminate|]. destruct b; cbn in I; intuition discriminate.
  - rewrite flat_map_app. assert (X : flat_map (fun e : event G => match e with PGenerator t => [t] | _ => [] end) (if b then [PError; PHint] else []) = []) by now destruct b.
    rewrite X, app_nil_r. generalize (flat_map (fun r : option string => match r with Some t => [t] | None => [] end) rs). induction l as [|x l IH]; cbn; [reflexivity|]. now f_equal.
Qed.

(** If they do not, no generator is called: at most the roots are loaded. The usage is printed and the exit code is 1; or 2 if an option is empty. *)
Theorem main_refused f w : normal f -> (forall nvs roots rs w', ~ asked f w nvs roots rs w') ->
  exists w' es code, main (inr f) w = (w', es, code) /\ (w' = w \/ exists paths, w' = fst (load (f_tags f) paths w)) /\
    (code = 1 /\ In (PUsage (Some Summary)) es \/ code = 2 /\ In "" (f_options f)).
Proof.
  intros N NA. destruct (normal_else f w N) as [(nvs & roots & rs & w2 & A)|(w2 & E & L & _)]; [now apply NA in A|].
  assert (L' : w2 = w \/ exists paths, w2 = fst (load (f_tags f) paths w)) by (destruct L as [L|(nvs & _ & _ & L)]; eauto).
  destruct E as [E|[E I]]; rewrite E; eexists _, _, _; (split; [reflexivity|]); (split; [exact L'|]); [left|right]; cbn; auto.
Qed.

(** Help, version and markers: nothing is loaded or written. The first two succeed whatever the options. *)
Theorem main_informs f w : (f_help f = true \/ f_version f = true \/ f_h f <> 0) -> exists es, main (inr f) w = (w, es, 0) /\ es <> [].
Proof.
  intros H. unfold MainModel.main, run_e. destruct (f_help f) eqn:A; [eexists; split; [reflexivity|discriminate]|]. destruct (f_version f) eqn:B; [eexists; split; [reflexivity|discriminate]|].
  destruct (f_h f) as [|n] eqn:C; [intuition discriminate|]. eexists; split; [reflexivity|discriminate].
Qed.

Theorem main_markers f w : f_help f = false -> f_version f = false -> f_h f = 0 -> f_w f <> 0 ->
  exists es code, main (inr f) w = (w, es, code) /\
    (code = 0 <-> exists nvs, Forall2 means (f_options f) nvs /\ acceptable G nvs /\ registers (map snd (gens_of G nvs)) = true) /\
    (forall nvs, code = 0 -> Forall2 means (f_options f) nvs -> es = [PMarkers (level_of (f_w f)) (map snd (gens_of G nvs))]).
Proof.
  intros A B C N. unfold MainModel.main, run_e. rewrite A, B, C. change (Nat.ltb 0 0) with false. cbv iota. assert (L : Nat.ltb 0 (f_w f) = true) by (apply Nat.ltb_lt; lia). rewrite L.
  destruct (proto_from_options G D parse o reg (f_options f)) as [p| |] eqn:Ep.
  - destruct (options_meaning _ _ Ep) as (nvs & F & Acc & Eg & _). destruct (registers (p_gens p)) eqn:Reg; eexists _, _; (split; [reflexivity|]); split.
    + split; auto. intros _. exists nvs. now rewrite <- Eg.
    + intros nvs' _ F'. rewrite (meanings_fun _ _ _ F' F). now rewrite Eg.
    + split; [discriminate|]. intros (nvs' & F' & _ & R). rewrite (meanings_fun _ _ _ F' F), <- Eg in R. congruence.
    + discriminate.
  - eexists _, _. split; [reflexivity|]. split; [|discriminate]. split; [discriminate|]. intros (nvs & F & Acc & _). destruct (proj2 (options_accepted G D parse reg rule_defs o (f_options f) any_o)) as (p & Ep'); [eauto|congruence].
  - eexists _, _. split; [reflexivity|]. split; [|discriminate]. split; [discriminate|]. intros (nvs & F & Acc & _). destruct (proj2 (options_accepted G D parse reg rule_defs o (f_options f) any_o)) as (p & Ep'); [eauto|congruence].
Qed.

(** Arguments whose flags do not parse: the exit code is 1 and nothing is done. *)
Theorem main_bad_flags h w : exists es, main (inl h) w = (w, es, 1) /\ exists l, In (PUsage l) es.
Proof. eexists. split; [reflexivity|]. cbn. eauto. Qed.
End Main.

(** ** What does not hold *)

Definition demo_main (f : flags) : list (string * option rule * bool) * list (event string) * nat :=
  main string option_kind demo_parse (register_all _ (option_defs ["crd"; "b"; "object"] (fun _ => ["dir"; "stdout"]) ["dir"; "none"; "stdout"])) (fun l => l)
    demo_join (fun l => l) (fun l => l) _ nat demo_act (fun g => String.eqb g "object") (fun _ p => if Nat.eqb p 2 then [true] else []) (fun _ roots => roots)
    (fun _ paths w => (w, match paths with [] => None | _ => Some [1; 2] end)) (fun _ => true) (inr f) [].

(** The usage has an example that runs all generators, without naming any: it fails. *)
Theorem main_all_generators_refuted : exists w es, demo_main (mkFlags false false 0 0 [] ["paths=./apis/..."]) = (w, es, 1).
Proof. eexists _, _. vm_compute. reflexivity. Qed.

(** More than four -w print nothing, though there are markers; and no error. *)
Theorem main_level_refuted : forall f, 4 < f_w f -> f_help f = false -> f_version f = false -> f_h f = 0 -> f_options f = ["crd"] ->
  demo_main f = ([], [PMarkers None ["crd"]], 0).
Proof.
  intros [a b c d t opts] H A B C E. cbn in *. subst. do 5 (destruct d as [|d]; [lia|]). vm_compute. reflexivity.
Qed.

(** --version and -h succeed with wrong options. *)
Theorem main_options_checked_refuted : demo_main (mkFlags false true 0 0 [] ["crd"; "nonsense"]) = ([], [PVersion], 0) /\
  demo_main (mkFlags false false 1 0 [] ["nonsense"]) = ([], [PUsage (Some Summary)], 0).
Proof. split; vm_compute; reflexivity. Qed.

(** Errors of types do not count. *)
Theorem main_type_errors_refuted : exists w es, demo_main (mkFlags false false 0 0 [] ["crd"; "paths=a"]) = (w, es, 0).
Proof. eexists _, _. vm_compute. reflexivity. Qed.

(** ** Cases *)

Example main_case : demo_main (mkFlags false false 0 0 ["ignore_autogenerated"] ["object"; "b"; "output:b:stdout"; "paths=a"; "crd"]) =
  ([("object", Some (Artifacts "config/object" ""), true); ("b", Some ToStdout, false); ("crd", Some (Artifacts "config/crd" ""), false)], [PGenerator "boom"; PError; PHint], 1).
Proof. vm_compute. reflexivity. Qed.
Example main_case_good : demo_main (mkFlags false false 0 0 [] ["object"; "output:stdout"; "paths=a"]) = ([("object", Some ToStdout, true)], [], 0).
Proof. vm_compute. reflexivity. Qed.
Example main_case_bad : demo_main (mkFlags false false 0 0 [] ["object"; "output:crd:stdout"; "paths=a"]) = ([], [PError; PUsage (Some Summary); PHint], 1) /\
  demo_main (mkFlags false false 0 0 [] ["object"]) = ([], [PError; PUsage (Some Summary); PHint], 1) /\
  demo_main (mkFlags false false 0 2 [] ["object"; ""]) = ([], [], 2) /\
  demo_main (mkFlags false false 0 2 [] ["object"; "crd"]) = ([], [PMarkers (Some Detailed) ["object"; "crd"]], 0).
Proof. repeat split; vm_compute; reflexivity. Qed.

Print Assumptions main_success.
Print Assumptions main_run.
Print Assumptions main_refused.
Print Assumptions main_informs.
Print Assumptions main_markers.
Print Assumptions main_bad_flags.
Print Assumptions main_all_generators_refuted.
Print Assumptions main_level_refuted.
Print Assumptions main_options_checked_refuted.
Print Assumptions main_type_errors_refuted.
