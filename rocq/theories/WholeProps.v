(** * C61: the CRDs written accept exactly the values of the Go types *)
From Coq Require Import List String Ascii Bool ZArith NArith QArith Permutation Relations Lia.
From Verif Require Import GoLib GoLibFacts MapFacts SchemaModel SchemaFacts RefModel ErrorsModel ValidSpec MarkModel MarkSpec StructModel FlattenModel NeedModel FlattenSpec StructSpec DescModel
  CrdModel CrdSpec CrdProofs4 CrdProps NeedProps EmitModel EmitSpec EmitProps WholeModel WholeSpec WholeProofs.
Import ListNotations.
Open Scope string_scope.
Open Scope list_scope.
Open Scope nat_scope.

Lemma Forall2_in_right {A B} (R : A -> B -> Prop) l m : Forall2 R l m -> forall y, In y m -> exists x, In x l /\ R x y.
Proof. induction 1 as [|a b l m H _ IH]; [intros y []|]. intros y [<-|I]; [exists a; split; [left; reflexivity|exact H]|]. destruct (IH y I) as (x & Ix & Hx). exists x. split; [right; exact Ix|exact Hx]. Qed.
Lemma Forall2_in_left {A B} (R : A -> B -> Prop) l m : Forall2 R l m -> forall x, In x l -> exists y, In y m /\ R x y.
Proof. induction 1 as [|a b l m H _ IH]; [intros y []|]. intros y [<-|I]; [exists b; split; [left; reflexivity|exact H]|]. destruct (IH y I) as (x & Ix & Hx). exists x. split; [right; exact Ix|exact Hx]. Qed.

Section Written.
  Variable order : marker_values -> marker_values.
  Variable sorted : list (string * smarker) -> list (string * smarker).
  Variable allow_dangerous ignore_unexported : bool.
  Variable imports : string -> string -> bool.
  Variable pkg_markers : string -> marker_values.
  Variable types : ident -> option tinfo.
  Variable presets : string -> list (string * schema).
  Variable ord : list string -> list string.
  Variable is_sterm is_space : N -> bool.
  Variable fuel : nat.
  Variable max_desc : option Z.
  Variable crd_markers : ident -> cmarkers.
  Variable pluralize lower : string -> string.
  Variable gv_order : list (string * (string * string)) -> list (string * (string * string)).
  Variable m_order : cmarkers -> cmarkers.
  Variable v_sort : list version -> list version.
  Variable group_versions : list (string * (string * string)).
  Variable tool_version : string.
  Variable t_order : list ((string * string) * list string) -> list ((string * string) * list string).
  Variable embedded : list ((string * string) * list string).
  Variable k_order k_sort : list (string * string) -> list (string * string).
  Variable O : oracles.
  Hypothesis order_ok : is_order order.
  Hypothesis sorted_ok : sorts sorted.
  Hypothesis ord_ok : is_order ord.
  Hypothesis presets_are_maps : forall p, NoDup (map fst (presets p)).
  Hypothesis Hg : is_order gv_order.
  Hypothesis Hm : is_order m_order.
  Hypothesis Hv : sorts_by (fun a b => str_ltb (v_name a) (v_name b)) v_sort.
  Hypothesis Ht : is_order t_order.
  Hypothesis Hk : is_order k_order.
  Hypothesis Hs : sorts_by (fun a b => str_ltb (gk_string a) (gk_string b)) k_sort.
  Hypothesis groups_are_a_map : NoDup (map fst group_versions).
  Notation run := (run_crd order sorted allow_dangerous ignore_unexported imports pkg_markers types presets ord is_sterm is_space fuel max_desc crd_markers pluralize lower gv_order m_order v_sort
    group_versions tool_version t_order embedded k_order k_sort).
  Notation tame := (tame order sorted allow_dangerous ignore_unexported imports pkg_markers types presets).
  Notation emitted := (emitted order sorted allow_dangerous ignore_unexported imports pkg_markers types presets ord is_sterm is_space fuel max_desc).
  Notation schema_of_type := (schema_of_type order sorted allow_dangerous ignore_unexported imports pkg_markers types presets ord is_sterm is_space fuel max_desc).
  Notation asked_types := (asked_types types gv_order group_versions t_order embedded k_order k_sort).
  Notation conforms := (conforms O ignore_unexported pkg_markers types presets).
  Notation kube_kind := (kube_kind group_versions embedded).
  Notation marked := (marked_types types crd_markers).

  Lemma run_generate vers w f es rep : run vers = WDone w f es rep ->
    generate pluralize lower gv_order m_order v_sort group_versions marked schema_of_type tool_version t_order embedded k_order k_sort vers = GDone w f es.
  Proof.
    unfold run_crd. destruct (existsb _ _); [discriminate|]. destruct (existsb _ _); [discriminate|].
    destruct (generate _ _ _ _ _ _ _ _ _ _ _ _ _ _); [|discriminate]. intros [= <- <- <- _]. reflexivity.
  Qed.
  Lemma run_silent vers w f es id : run vers = WDone w f es [] -> In id asked_types -> exists s, emitted id = EDone s [] [] [].
  Proof.
    unfold run_crd. destruct (existsb _ _) eqn:A; [discriminate|]. destruct (existsb _ _) eqn:B in |- *; [discriminate|].
    destruct (generate _ _ _ _ _ _ _ _ _ _ _ _ _ _); [|discriminate]. intros [= _ _ _ R] I.
    assert (X : forall g : ident -> bool, existsb g asked_types = false -> g id = false).
    { intros g E. destruct (g id) eqn:G; [|reflexivity]. rewrite <- E. symmetry. apply existsb_exists. eauto. }
    apply X in A. apply X in B.
    assert (C : reports order sorted allow_dangerous ignore_unexported imports pkg_markers types presets ord is_sterm is_space fuel max_desc id = false).
    { destruct (reports _ _ _ _ _ _ _ _ _ _ _ _ _ id) eqn:Rp; [|reflexivity]. exfalso. assert (J : In id []) by (rewrite <- R; apply filter_In; auto). destruct J. }
    unfold reports in C. destruct (emitted id) as [s [|] [|] [|]| |]; try discriminate. exists s. reflexivity.
  Qed.
  Lemma defined_asked g k p n ms : kube_kind g k -> defines group_versions marked g k p n ms -> In (p, k) asked_types.
  Proof.
    intros K (I & E). apply in_flat_map. exists (g, k). split; [apply kinds_in; assumption|]. apply in_flat_map. exists (p, n). split.
    - unfold packages_of. apply in_flat_map. exists (p, (g, n)). split; [eapply Permutation_in; [apply Permutation_sym, Hg|exact I]|]. cbn. rewrite String.eqb_refl. left. reflexivity.
    - cbn. unfold marked_types in E. destruct (types (p, k)); [left; reflexivity|discriminate].
  Qed.

  (** If nothing is reported, each version of each CRD written is that of a package of the group that has the kind, and its schema
      accepts the values of the kind's type in that package. *)
  Theorem run_values vers w es f x y :
    (forall g k, kube_kind g k -> distinct_versions group_versions marked g k /\ all_registered group_versions marked g k) ->
    run vers = WDone w false es [] -> In (f, x) w -> In y (c_versions x) ->
    exists p, In (p, (c_group x, v_name y)) group_versions /\ types (p, n_kind (c_names x)) <> None /\ kube_kind (c_group x) (n_kind (c_names x)) /\
      forall rank, tame (p, n_kind (c_names x)) rank -> unmixed (schema_of_type (p, n_kind (c_names x))) ->
        accepts_values (valid O (v_schema y)) (conforms (p, n_kind (c_names x))).
  Proof.
    intros Reg R If Iy. pose proof (run_generate _ _ _ _ _ R) as G.
    destruct (files_written _ _ _ _ _ _ _ _ _ _ _ _ _ Hg Hm Ht Hk Hs _ _ _ G) as (_ & W & _). destruct (W f x If) as (g & k & o & errs & i & v & K & N & _ & Pu).
    destruct o as [c|]; [|destruct Pu as [_ E]; rewrite E in Iy; destruct Iy]. destruct Pu as (_ & Pu).
    destruct (crd_name _ _ _ _ _ _ _ _ Hg Hm _ _ _ _ N) as (_ & Eg & Ek & _). destruct Pu as [_ Pg Pn _ _ Pv]. rewrite Pg, Pn, Eg, Ek.
    destruct (Forall2_in_right _ _ _ Pv y Iy) as (z & Iz & Ez & Es & Km & Gm).
    destruct (Reg g k K) as (Dv & Ar). destruct (crd_version_contents _ _ _ _ _ _ _ _ Hg Hm Hv _ _ _ _ groups_are_a_map Dv Ar N) as (_ & Cv). destruct (Cv z Iz) as (p & ms & D & Vs).
    assert (Ey : v_name y = v_name z) by (rewrite Ez; reflexivity).
    exists p. rewrite Ey. split; [apply D|]. split; [intros X; destruct D as (_ & D); unfold marked_types in D; rewrite X in D; discriminate|]. split; [exact K|].
    intros rank T U. destruct (run_silent _ _ _ _ (p, k) R (defined_asked _ _ _ _ _ K D)) as (s & E). assert (S : schema_of_type (p, k) = s) by (unfold WholeModel.schema_of_type; rewrite E; reflexivity).
    rewrite S in U. pose proof (vs_schema _ _ _ _ _ Vs) as Sz. rewrite S in Sz. rewrite Sz in *. apply (published_accepts O s); auto.
    - eapply (emit_keys order sorted allow_dangerous ignore_unexported imports pkg_markers types presets ord is_sterm is_space O); eauto.
    - intros u Nu. eapply (emit_values order sorted allow_dangerous ignore_unexported imports pkg_markers types presets ord is_sterm is_space O); eauto.
  Qed.
  (** Every version of a kind, but those that are skipped, is in a CRD that is written. *)
  Theorem run_complete vers w es rep g k n : run vers = WDone w false es rep -> kube_kind g k -> kept group_versions marked g k n ->
    exists f x y, In (f, x) w /\ c_group x = g /\ n_kind (c_names x) = k /\ In y (c_versions x) /\ v_name y = n.
  Proof.
    intros R K Kn. pose proof (run_generate _ _ _ _ _ R) as G.
    destruct (files_written _ _ _ _ _ _ _ _ _ _ _ _ _ Hg Hm Ht Hk Hs _ _ _ G) as (W & _ & _).
    assert (NP : need_crd pluralize lower gv_order m_order v_sort group_versions marked schema_of_type g k <> CPanic).
    { pose proof (proj2 (kinds_in group_versions t_order embedded k_order k_sort Ht Hk Hs g k) K) as I. unfold generate in G. destruct (find_kinds group_versions t_order embedded k_order k_sort) as [|gk kinds] eqn:Ek; [destruct I|].
      assert (NE : gk :: kinds <> []) by discriminate. destruct (kinds_done _ _ _ _ _ _ _ _ _ _ _ _ _ _ NE G) as [[X _]|(_ & _ & _ & NP & _)]; [discriminate X|]. apply (NP _ I). }
    destruct (need_crd pluralize lower gv_order m_order v_sort group_versions marked schema_of_type g k) as [[c|] errs|] eqn:N; [| |congruence].
    2:{ exfalso. exact (crd_none _ _ _ _ _ _ _ _ Hg Hm _ _ _ N n Kn). }
    destruct (crd_versions _ _ _ _ _ _ _ _ Hg Hm Hv _ _ _ _ N) as (_ & V & _). apply V in Kn. apply in_map_iff in Kn as (z & <- & Iz).
    assert (exists v, nth_error (asked vers) 0 = Some v) as (v & Ev) by (destruct vers; cbn; eauto).
    destruct (W g k c errs 0 v K N Ev) as (f & x & Ix & _ & Pu). destruct (crd_name _ _ _ _ _ _ _ _ Hg Hm _ _ _ _ N) as (_ & Eg & Ek & _). destruct Pu as [_ Pg Pn _ _ Pv].
    destruct (Forall2_in_left _ _ _ Pv z Iz) as (y & Iy & Ey & _). exists f, x, y. rewrite Pg, Pn, Eg, Ek. repeat split; auto. rewrite Ey. reflexivity.
  Qed.
End Written.
Print Assumptions run_values.
Print Assumptions run_complete.

(** ** A case: a kind in two packages, with a number in one version and a string in the other *)
Definition case_box (size : finfo) : tinfo := mkTInfo "Box" "" []
  [ mkFInfo "" true "" (Some ",inline") [] (ESel (TNamed (OPkg "meta") "TypeMeta" TOther));
    mkFInfo "" true "" (Some "metadata,omitempty") [] (ESel (TNamed (OPkg "meta") "ObjectMeta" TOther)); size ] EStruct false false.
Definition case_old : finfo := mkFInfo "Size" true "" (Some "size") [("kubebuilder:validation:Minimum", [VSchema (MMinimum 1)])] (EIdent "int32" (TBasic BInt32 "int32")).
Definition case_new : finfo := mkFInfo "Size" true "" (Some "size") [("kubebuilder:validation:MaxLength", [VSchema (MMaxLength 3)])] str_e.
Definition case_meta : tinfo := mkTInfo "TypeMeta" "" [] [mkFInfo "Kind" true "" (Some "kind,omitempty") [] str_e] EStruct false false.
Definition box_types (id : ident) : option tinfo := mget ident_eqb [(("p1", "Box"), case_box case_old); (("p2", "Box"), case_box case_new); (("meta", "TypeMeta"), case_meta)] id.
Definition box_presets (p : string) : list (string * schema) := if String.eqb p "meta" then [("ObjectMeta", set_type schema0 "object")] else [].
Definition box_imports (p q : string) : bool := String.eqb q "meta".
Definition box_rank (id : ident) : nat := if String.eqb (snd id) "Box" then 1 else 0.
Definition box_markers (id : ident) : cmarkers := if ident_eqb id ("p1", "Box") then [("kubebuilder:storageversion", [CStorage])] else [].
Definition box_groups : list (string * (string * string)) := [("p1", ("g", "v1")); ("p2", ("g", "v2"))].
Definition box_embedded : list ((string * string) * list string) := [(("p1", "Box"), ["TypeMeta"; "ObjectMeta"]); (("p2", "Box"), ["TypeMeta"; "ObjectMeta"]); (("meta", "TypeMeta"), [])].
Definition by_kind : list (string * string) -> list (string * string) := sort_by (fun a b => str_ltb (gk_string a) (gk_string b)).
Notation box_run := (run_crd (fun l => l) MarkProps.stable false true box_imports (fun _ => []) box_types box_presets (fun l => l) (fun c => N.eqb c 46) (fun c => N.eqb c 32) 100 None
  box_markers (fun s => s) (fun s => s) (fun l => l) (fun l => l) by_name box_groups "v0" (fun l => l) box_embedded (fun l => l) by_kind []).
Definition box_written : list (string * crd) := Eval vm_compute in match box_run with WDone w _ _ _ => w | _ => [] end.
Notation box_schema p := (match box_written with [(_, c)] => match c_versions c with [v; v'] => v_schema (if String.eqb p "p1" then v else v') | _ => schema0 end | _ => schema0 end).
Example box_runs : box_run = WDone box_written false [] [] /\ map fst box_written = ["g_Box.yaml"] /\
  map (fun fc => map v_name (c_versions (snd fc))) box_written = [["v1"; "v2"]].
Proof. vm_compute. auto. Qed.
Notation box_gen := (generated (fun l => l) MarkProps.stable false true box_imports (fun _ => [])).
Lemma box_requests id ti s reqs errs : box_types id = Some ti -> box_gen id ti = Done s reqs errs ->
  (In id [("p1", "Box"); ("p2", "Box")] /\ reqs = [("meta", "TypeMeta"); ("meta", "ObjectMeta")] /\ k_ref (s_kw s) = None) \/ (id = ("meta", "TypeMeta") /\ reqs = []).
Proof.
  assert (A : match box_gen ("p1", "Box") (case_box case_old) with Done s r _ => r = [("meta", "TypeMeta"); ("meta", "ObjectMeta")] /\ k_ref (s_kw s) = None | Panic => False end) by (vm_compute; auto).
  assert (B : match box_gen ("p2", "Box") (case_box case_new) with Done s r _ => r = [("meta", "TypeMeta"); ("meta", "ObjectMeta")] /\ k_ref (s_kw s) = None | Panic => False end) by (vm_compute; auto).
  assert (C : match box_gen ("meta", "TypeMeta") case_meta with Done _ r _ => r = [] | Panic => False end) by (vm_compute; reflexivity).
  unfold box_types. cbn [mget].
  repeat match goal with |- (if ident_eqb id ?k then _ else _) = _ -> _ => destruct (ident_eqb id k) eqn:?; [match goal with H : ident_eqb id k = true |- _ => apply FlattenProofs6.ident_eqb_eq in H; subst id end; intros [= <-] G|] end.
  - rewrite G in A. left. split; [left; reflexivity|exact A].
  - rewrite G in B. left. split; [right; left; reflexivity|exact B].
  - rewrite G in C. right. split; [reflexivity|exact C].
  - clear. intros H. discriminate H.
Qed.
Lemma box_tame p : In p ["p1"; "p2"] -> tame (fun l => l) MarkProps.stable false true box_imports (fun _ => []) box_types box_presets (p, "Box") box_rank.
Proof.
  intros Ip.
  assert (Nd : forall id, needed (fun l => l) MarkProps.stable false true box_imports (fun _ => []) box_types box_presets [(p, "Box")] id -> In id [(p, "Box"); ("meta", "TypeMeta"); ("meta", "ObjectMeta")]).
  { induction 1 as [id [<-|[]]|id ti s reqs errs r N IH P E G I]; [left; reflexivity|].
    destruct (box_requests _ _ _ _ _ E G) as [(_ & -> & _)|(_ & ->)]; cbn in I; repeat (destruct I as [<-|I]); try destruct I; clear; cbn; auto. }
  assert (Rn : forall id id', ~ renames (fun l => l) MarkProps.stable false true box_imports (fun _ => []) box_types id id').
  { intros id id' (ti & s & reqs & errs & q & n & E & G & I & K & ->). destruct (box_requests _ _ _ _ _ E G) as [(_ & _ & K')|(_ & ->)]; [congruence|destruct I]. }
  constructor.
  - intros id id' N P (ti & s & reqs & errs & r & E & G & I & ->). destruct (box_requests _ _ _ _ _ E G) as [(J & -> & _)|(_ & ->)]; [|destruct I].
    assert (Hr : box_rank id = 1) by (destruct J as [<-|[<-|[]]]; reflexivity). rewrite Hr. destruct I as [<-|[<-|[]]]; clear; cbn; lia.
  - intros id N. apply Nd in N. destruct N as [<-|[<-|[<-|[]]]]; [destruct Ip as [<-|[<-|[]]]|..]; split; reflexivity.
  - intros id id' _ C. exfalso. induction C as [id id' C|]; [exact (Rn _ _ C)|assumption].
  - intros id ti _ _. unfold box_types. cbn [mget].
    repeat match goal with |- (if ident_eqb id ?k then _ else _) = _ -> _ => destruct (ident_eqb id k); [intros [= <-]|] end; [..|discriminate].
    all: (split; [apply tame_few; intros []; vm_compute; auto; split; discriminate|split; [|split; [intros e; discriminate|apply distinct_roles; vm_compute; repeat constructor; cbn; intuition discriminate]]]).
    all: repeat (constructor; [apply tame_few; intros []; vm_compute; auto; split; discriminate|]); constructor.
  - intros q n s. unfold box_presets. destruct (String.eqb q "meta"); [|discriminate]. cbn [mget]. destruct (String.eqb n "ObjectMeta"); [|discriminate]. intros [= <-].
    intros x [<-|[]]. repeat split; cbn; try constructor; discriminate.
Qed.
Lemma box_regular g k : distinct_versions box_groups (marked_types box_types box_markers) g k /\ all_registered box_groups (marked_types box_types box_markers) g k.
Proof.
  split.
  - intros p ms p' ms' n ([E|[E|[]]] & _) ([E'|[E'|[]]] & _); congruence.
  - intros p n ms (_ & E). unfold marked_types in E. destruct (box_types (p, k)); [|discriminate]. injection E as <-. unfold box_markers. destruct (ident_eqb (p, k) ("p1", "Box")).
    + split; [repeat constructor; intros []|]. intros n1 vs m n' vs' m' [[= <- <-]|[]] _ [[= <- <-]|[]] _ _ _. reflexivity.
    + split; [constructor|]. intros n1 vs m n' vs' m' [].
Qed.
Lemma by_kind_sorts : sorts_by (fun a b => str_ltb (gk_string a) (gk_string b)) by_kind.
Proof.
  intros l. split; [apply sort_by_perm|]. apply (sort_by_sorted (string * string) (fun a b => str_ltb (gk_string a) (gk_string b))).
  - intros a b c. apply str_ltb_trans.
  - intros a. apply str_ltb_irrefl.
  - intros a b c. apply str_ltb_negtrans.
Qed.
Notation box_conforms p := (conforms O_real true (fun _ => []) box_types box_presets (p, "Box")).
Notation box_emitted := (schema_of_type (fun l => l) MarkProps.stable false true box_imports (fun _ => []) box_types box_presets (fun l => l) (fun c => N.eqb c 46) (fun c => N.eqb c 32) 100 None).
Lemma unmixed_decided s : forallb (fun x => match s_props x with [] => true | _ => match s_addl x with Some (_, Some _) => false | _ => true end end) (subschemas s) = true -> unmixed s.
Proof.
  intros B x Hx. rewrite forallb_forall in B. specialize (B x Hx). clear Hx. unfold unmixed_node. destruct (s_props x); [left; reflexivity|right]. destruct (s_addl x) as [[b [c|]]|]; [discriminate B|exact I|exact I].
Qed.
Lemma box_unmixed p : In p ["p1"; "p2"] -> unmixed (box_emitted (p, "Box")).
Proof. intros [<-|[<-|[]]]; apply unmixed_decided; vm_compute; reflexivity. Qed.
Lemma box_accepts p : In p ["p1"; "p2"] -> accepts_values (valid O_real (box_schema p)) (box_conforms p).
Proof.
  intros Ip. destruct box_runs as (R & _). 
  assert (X : forall f x y, In (f, x) box_written -> In y (c_versions x) -> c_group x = "g" /\ n_kind (c_names x) = "Box" /\ (v_name y = if String.eqb p "p1" then "v1" else "v2") -> accepts_values (valid O_real (v_schema y)) (box_conforms p)).
  { intros f x y If Iy (Eg & Ek & En).
    destruct (run_values (fun l => l) MarkProps.stable false true box_imports (fun _ => []) box_types box_presets (fun l => l) (fun c => N.eqb c 46) (fun c => N.eqb c 32) 100 None
      box_markers (fun s => s) (fun s => s) (fun l => l) (fun l => l) by_name box_groups "v0" (fun l => l) box_embedded (fun l => l) by_kind O_real
      MarkProps.id_order MarkProps.stable_sorts MarkProps.id_order ltac:(intros q; unfold box_presets; destruct (String.eqb q "meta"); repeat constructor; intros []) case_id case_id by_name_sorts case_id case_id by_kind_sorts
      ltac:(repeat constructor; cbn; intuition discriminate) [] box_written [] f x y (fun g k _ => box_regular g k) R If Iy) as (q & Iq & _ & _ & A).
    rewrite Ek in A. assert (q = p) as ->.
    { rewrite Eg, En in Iq. destruct Ip as [<-|[<-|[]]]; cbn in Iq; destruct Iq as [[= <-]|[[= <-]|[]]]; reflexivity. }
    apply (A box_rank (box_tame p Ip) (box_unmixed p Ip)). }
  destruct Ip as [<-|[<-|[]]]; (eapply X; [left; reflexivity| |repeat split]; cbn; auto).
Qed.
Definition box_value (size : json) (meta : list (string * json)) : json := JObj ((("size", size)) :: meta).
Example box_values :
  box_conforms "p1" (box_value (JNum 2) []) /\ ~ box_conforms "p2" (box_value (JNum 2) []) /\ ~ box_conforms "p1" (box_value (JNum 0) []) /\ box_conforms "p2" (box_value (JStr "abc") []) /\
  valid O_real (box_schema "p1") (box_value (JNum 2) [("metadata", JObj [("name", JStr "b")])]) = true /\ valid O_real (box_schema "p1") (box_value (JNum 2) [("metadata", JStr "b")]) = false.
Proof.
  assert (A : forall p v, In p ["p1"; "p2"] -> null_free v = true -> metadata v = None -> (valid O_real (box_schema p) v = true <-> box_conforms p v)).
  { intros p v Ip N M. destruct (box_accepts p Ip v N) as (H1 & H2). split; [intros V; apply H2; [exact V|]|intros C; apply H1; [exact C|]]; intros m E; rewrite M in E; discriminate E. }
  repeat split; try (apply A; [cbn; auto|reflexivity|reflexivity|vm_compute; reflexivity]); try (vm_compute; reflexivity);
    intros C; apply A in C; [vm_compute in C; discriminate C|cbn; auto|reflexivity|reflexivity|vm_compute in C; discriminate C|cbn; auto|reflexivity|reflexivity].
Qed.

(** After errors CRDs are written all the same: a field of type complex64 is reported, and the CRD accepts anything for it. *)
Definition bad_types (id : ident) : option tinfo :=
  if ident_eqb id ("p", "Box") then Some (mkTInfo "Box" "" [] [mkFInfo "Size" true "" (Some "size") [] (EIdent "complex64" (TBasic BComplex64 "complex64"))] EStruct false false) else None.
Notation bad_run := (run_crd (fun l => l) MarkProps.stable false true box_imports (fun _ => []) bad_types (fun _ => []) (fun l => l) (fun c => N.eqb c 46) (fun c => N.eqb c 32) 100 None
  (fun _ => []) (fun s => s) (fun s => s) (fun l => l) (fun l => l) by_name [("p", ("g", "v1"))] "v0" (fun l => l) [(("p", "Box"), ["TypeMeta"; "ObjectMeta"])] (fun l => l) by_kind []).
Theorem run_reported_refuted : exists f x y, bad_run = WDone [(f, x)] false [] [("p", "Box")] /\ c_versions x = [y] /\
  valid O_real (v_schema y) (box_value (JStr "s") []) = true /\ ~ conforms O_real true (fun _ => []) bad_types (fun _ => []) ("p", "Box") (box_value (JStr "s") []).
Proof.
  eexists _, _, _. split; [vm_compute; reflexivity|]. split; [reflexivity|]. split; [vm_compute; reflexivity|].
  intros C. inversion C; subst; try (match goal with H : mget _ _ _ = Some _ |- _ => discriminate H end);
    match goal with H : bad_types _ = Some _ |- _ => injection H as <- end; try (match goal with H : _ = true |- _ => discriminate H end); try (match goal with H : ti_raw _ <> EStruct |- _ => contradiction H; reflexivity end).
  match goal with H : forall l f n q x, _ = JObj l -> _ |- _ => rename H into F end.
  assert (Hh : holds O_real true (fun _ => []) bad_types (fun _ => []) "p" (mkFInfo "Size" true "" (Some "size") [] (EIdent "complex64" (TBasic BComplex64 "complex64"))) (JStr "s")).
  { eapply (F _ _ "size"); [reflexivity|left; reflexivity|apply StructProofs.plays_role; reflexivity|reflexivity]. }
  inversion Hh; subst; [match goal with X : marked _ _ |- _ => destruct X as (m & ms & X); discriminate X end|].
  match goal with T : fits _ _ _ _ _ _ _ _ _ _ |- _ => inversion T; subst end; try (match goal with E : _ \/ _ |- _ => destruct E as [E|E]; discriminate E end);
    match goal with E : meant _ = TBasic ?k _ |- _ => injection E as <- end; try congruence; match goal with E : json_of _ = Some _ |- _ => discriminate E end.
Qed.
Print Assumptions run_reported_refuted.
