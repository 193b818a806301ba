(** * C60: the schema in a CRD accepts exactly the values of the Go type *)
From Coq Require Import List String Ascii Bool ZArith NArith QArith Permutation Relations Lia.
From Verif Require Import GoLib GoLibFacts SchemaModel SchemaFacts RefModel ErrorsModel ValidSpec MarkModel MarkSpec StructModel FlattenModel NeedModel FlattenSpec StructSpec DescModel
  NeedProps EmitModel EmitSpec EmitProofs5 EmitProofs6 EmitFuel.
Import ListNotations.
Open Scope string_scope.
Open Scope list_scope.
Open Scope nat_scope.

Section Emitted.
  Variable order : marker_values -> marker_values.
  Variable sorted : list (string * smarker) -> list (string * smarker).
  Variable allow_dangerous ignore_unexported : bool.
  Variable imports : string -> string -> bool.
  Variable pkg_markers : string -> marker_values.
  Variable types : ident -> option tinfo.
  Variable presets : string -> list (string * schema).
  Variable ord : list string -> list string.
  Variable is_sterm is_space : N -> bool.
  Variable O : oracles.
  Notation preset id := (mget String.eqb (presets (fst id)) (snd id)).
  Notation needed := (needed order sorted allow_dangerous ignore_unexported imports pkg_markers types presets).
  Notation gen := (generated order sorted allow_dangerous ignore_unexported imports pkg_markers).
  Notation tame := (tame order sorted allow_dangerous ignore_unexported imports pkg_markers types presets).
  Notation emit := (emit order sorted allow_dangerous ignore_unexported imports pkg_markers types presets ord is_sterm is_space).
  Notation conforms := (conforms O ignore_unexported pkg_markers types presets).
  Hypothesis order_ok : is_order order.
  Hypothesis sorted_ok : sorts sorted.
  Hypothesis ord_ok : is_order ord.
  Hypothesis presets_are_maps : forall p, NoDup (map fst (presets p)).

  Lemma run_made root fuel max_desc s refs es : emit fuel max_desc root = EDone s [] refs es ->
    need_all order sorted allow_dangerous ignore_unexported imports pkg_markers types presets fuel [root] (mkPS [] [] []) <> NFuel /\
    all_made order sorted allow_dangerous ignore_unexported imports pkg_markers types presets root.
  Proof.
    intros E. assert (N : need_all order sorted allow_dangerous ignore_unexported imports pkg_markers types presets fuel [root] (mkPS [] [] []) <> NFuel) by (unfold EmitModel.emit in E; intros X; rewrite X in E; discriminate).
    split; [exact N|]. destruct (emit_made order sorted allow_dangerous ignore_unexported imports pkg_markers types presets presets_are_maps ord is_sterm is_space root fuel N) as [M|(F & H)]; [exact M|].
    exfalso. apply (H (fuel + F) max_desc s refs es); [lia|]. eapply emit_more; [|discriminate|exact E]. lia.
  Qed.
  (** Whatever the limit for descriptions: if nothing is reported, the schema accepts a value without null exactly if it is a value of the
      type, by the type's declaration, its markers and those of all types below. *)
  Theorem emit_values root rank fuel max_desc s refs v : tame root rank -> emit fuel max_desc root = EDone s [] refs [] -> unmixed s -> null_free v = true ->
    (valid O s v = true <-> conforms root v).
  Proof.
    intros T E Um Nv. destruct (run_made _ _ _ _ _ _ E) as [N M].
    destruct (emit_ok order sorted order_ok sorted_ok allow_dangerous ignore_unexported imports pkg_markers types presets presets_are_maps ord ord_ok is_sterm is_space O root rank fuel N T M) as (F & H).
    destruct (H (fuel + F) max_desc ltac:(lia)) as (s' & es & E' & _ & K). assert (X : emit (fuel + F) max_desc root = EDone s [] refs []) by (eapply emit_more; [|discriminate|exact E]; lia).
    rewrite X in E'. injection E' as <- _ <-. apply K; auto.
  Qed.
  (** If the parser reports nothing, no reference is unknown and none is left in the schema. *)
  Theorem emit_no_refs root rank fuel max_desc s refs conflicts : tame root rank -> emit fuel max_desc root = EDone s [] refs conflicts ->
    refs = [] /\ forall r, ~ ref_in r s.
  Proof.
    intros T E. destruct (run_made _ _ _ _ _ _ E) as [N M].
    destruct (emit_ok order sorted order_ok sorted_ok allow_dangerous ignore_unexported imports pkg_markers types presets presets_are_maps ord ord_ok is_sterm is_space O root rank fuel N T M) as (F & H).
    destruct (H (fuel + F) max_desc ltac:(lia)) as (s' & es & E' & R & _). assert (X : emit (fuel + F) max_desc root = EDone s [] refs conflicts) by (eapply emit_more; [|discriminate|exact E]; lia).
    rewrite X in E'. injection E' as <- -> <-. split; [reflexivity|]. intros r K. apply ref_node_in in K as (x & I & K). rewrite (proj1 (R x I)) in K. discriminate.
  Qed.
  Lemma emit_keys root rank fuel max_desc s refs conflicts : tame root rank -> emit fuel max_desc root = EDone s [] refs conflicts -> NoDup (map fst (s_props s)).
  Proof.
    intros T E. destruct (run_made _ _ _ _ _ _ E) as [N M].
    destruct (emit_ok order sorted order_ok sorted_ok allow_dangerous ignore_unexported imports pkg_markers types presets presets_are_maps ord ord_ok is_sterm is_space O root rank fuel N T M) as (F & H).
    destruct (H (fuel + F) max_desc ltac:(lia)) as (s' & es & E' & R & _). assert (X : emit (fuel + F) max_desc root = EDone s [] refs conflicts) by (eapply emit_more; [|discriminate|exact E]; lia).
    rewrite X in E'. injection E' as <- -> <-. apply R. destruct s. left. reflexivity.
  Qed.
  (** There is a schema, if those of all types needed can be made. *)
  Theorem emit_returns U root rank : (forall id, types id <> None -> In id U) -> tame root rank ->
    (forall id, needed [root] id -> preset id = None -> exists ti s reqs, types id = Some ti /\ gen id ti = Done s reqs []) ->
    exists F, forall fuel max_desc, F <= fuel -> exists s conflicts, emit fuel max_desc root = EDone s [] [] conflicts.
  Proof.
    intros HU T M.
    destruct (emit_ok order sorted order_ok sorted_ok allow_dangerous ignore_unexported imports pkg_markers types presets presets_are_maps ord ord_ok is_sterm is_space O root rank (S (List.length U))
      (schema_requests_end order sorted allow_dangerous ignore_unexported imports pkg_markers types presets presets_are_maps U [root] HU (S (List.length U)) (le_n _)) T M) as (F & H).
    exists F. intros fuel md L. destruct (H fuel md L) as (s & es & E & _). eauto.
  Qed.
End Emitted.
Print Assumptions emit_values.
Print Assumptions emit_no_refs.
Print Assumptions emit_returns.

(** Neither the order in which Go iterates over maps nor the limit for descriptions decides what is accepted. *)
Theorem emit_deterministic order sorted order' sorted' allow_dangerous ignore_unexported imports pkg_markers types presets ord ord' is_sterm is_space O root rank rank' fuel fuel' max_desc max_desc' s s' refs refs' v :
  is_order order -> sorts sorted -> is_order order' -> sorts sorted' -> is_order ord -> is_order ord' -> (forall p, NoDup (map fst (presets p))) ->
  tame order sorted allow_dangerous ignore_unexported imports pkg_markers types presets root rank ->
  tame order' sorted' allow_dangerous ignore_unexported imports pkg_markers types presets root rank' ->
  emit order sorted allow_dangerous ignore_unexported imports pkg_markers types presets ord is_sterm is_space fuel max_desc root = EDone s [] refs [] -> unmixed s ->
  emit order' sorted' allow_dangerous ignore_unexported imports pkg_markers types presets ord' is_sterm is_space fuel' max_desc' root = EDone s' [] refs' [] -> unmixed s' ->
  null_free v = true -> valid O s v = valid O s' v.
Proof.
  intros H1 H2 H3 H4 H5 H6 Hp T T' E Um E' Um' Nv. apply eq_true_iff_eq.
  rewrite (emit_values order sorted allow_dangerous ignore_unexported imports pkg_markers types presets ord is_sterm is_space O H1 H2 H5 Hp root rank fuel max_desc s refs v T E Um Nv),
    (emit_values order' sorted' allow_dangerous ignore_unexported imports pkg_markers types presets ord' is_sterm is_space O H3 H4 H6 Hp root rank' fuel' max_desc' s' refs' v T' E' Um' Nv). tauto.
Qed.
Print Assumptions emit_deterministic.

(** ** A case: a struct with a bounded string, a named integer behind another name, a list of maps of another package, a type with a
    schema that is set, and an embedded struct *)
Definition str_e : texpr := EIdent "string" (TBasic BString "string").
Definition demo_root : tinfo := mkTInfo "Root" "A root." []
  [ mkFInfo "Name" true "The name." (Some "name") [("kubebuilder:validation:MaxLength", [VSchema (MMaxLength 5)])] str_e;
    mkFInfo "Size" true "" (Some "size,omitempty") [("kubebuilder:validation:Enum", [VSchema (MEnum [JNum 1; JNum 2; JNum 0])])] (EStar (EIdent "Mid" (TNamed OHere "Mid" (TBasic BInt32 "int32"))));
    mkFInfo "Parts" true "" (Some "parts") [("kubebuilder:validation:MaxItems", [VSchema (MMaxItems 2)])] (EArray false (ESel (TNamed (OPkg "q") "Part" TOther)));
    mkFInfo "When" true "" (Some "when,omitempty") [] (ESel (TNamed (OPkg "meta") "Time" TOther));
    mkFInfo "" true "" (Some ",inline") [] (EIdent "Common" (TNamed OHere "Common" TOther)) ] EStruct false false.
Definition demo_mid : tinfo := mkTInfo "Mid" "" [] [] (EIdent "Size" (TNamed OHere "Size" (TBasic BInt32 "int32"))) false false.
Definition demo_size : tinfo := mkTInfo "Size" "" [("kubebuilder:validation:Minimum", [VSchema (MMinimum 1)])] [] (EIdent "int32" (TBasic BInt32 "int32")) false false.
Definition demo_common : tinfo := mkTInfo "Common" "" [] [mkFInfo "Kind" true "" (Some "kind") [] str_e] EStruct false false.
Definition demo_part : tinfo := mkTInfo "Part" "" [] [] (EMap (TBasic BString "string") str_e) false false.
Definition demo_list : list (ident * tinfo) := [(("p", "Root"), demo_root); (("p", "Mid"), demo_mid); (("p", "Size"), demo_size); (("p", "Common"), demo_common); (("q", "Part"), demo_part)].
Definition demo_types (id : ident) : option tinfo := mget ident_eqb demo_list id.
Definition demo_presets (p : string) : list (string * schema) := if String.eqb p "meta" then [("Time", typed "string" "date-time")] else [].
Definition demo_rank (id : ident) : nat := if String.eqb (snd id) "Root" then 2 else if String.eqb (snd id) "Mid" then 1 else 0.
Definition demo_imports (p q : string) : bool := String.eqb p "p" && (String.eqb q "q" || String.eqb q "meta").
Definition O_real : oracles := mkOracles (fun a b => match a, b with JNum x, JNum y => Qeq_bool x y | _, _ => false end) (fun s => Z.of_nat (String.length s)) (fun _ _ => true) (fun f v => negb (String.eqb f "date-time") || match v with JStr (String "2" _) => true | _ => false end)
  (fun _ _ => true) (fun _ _ => true) (fun _ => true) (fun _ _ => true).
Notation demo_emit := (emit (fun l => l) MarkProps.stable false true demo_imports (fun _ => []) demo_types demo_presets (fun l => l) (fun c => N.eqb c 46) (fun c => N.eqb c 32) 100 None ("p", "Root")).
Definition demo_schema : schema := Eval vm_compute in match demo_emit with EDone s _ _ _ => s | _ => schema0 end.
Notation demo_needed := (needed (fun l => l) MarkProps.stable false true demo_imports (fun _ => []) demo_types demo_presets [("p", "Root")]).
Notation demo_gen := (generated (fun l => l) MarkProps.stable false true demo_imports (fun _ => [])).
Definition demo_ids : list ident := [("p", "Root"); ("p", "Mid"); ("p", "Size"); ("p", "Common"); ("q", "Part"); ("meta", "Time")].

Example demo_emitted : demo_emit = EDone demo_schema [] [] [] /\ unmixed demo_schema /\
  map fst (s_props demo_schema) = ["name"; "size"; "parts"; "when"; "kind"] /\ k_required (s_kw demo_schema) = ["kind"; "name"; "parts"].
Proof.
  split; [vm_compute; reflexivity|]. split; [|split; vm_compute; reflexivity].
  assert (B : forallb (fun x => match s_props x with [] => true | _ => match s_addl x with Some (_, Some _) => false | _ => true end end) (subschemas demo_schema) = true) by (vm_compute; reflexivity).
  intros x Hx. rewrite forallb_forall in B. specialize (B x Hx). clear Hx. unfold unmixed_node. destruct (s_props x); [left; reflexivity|right]. destruct (s_addl x) as [[b [c|]]|]; [discriminate B|exact I|exact I].
Qed.
Lemma demo_requests id ti s reqs errs : demo_types id = Some ti -> demo_gen id ti = Done s reqs errs ->
  (id = ("p", "Root") /\ reqs = [("", "Mid"); ("q", "Part"); ("meta", "Time"); ("", "Common")] /\ k_ref (s_kw s) = None) \/
  (id = ("p", "Mid") /\ reqs = [("", "Size")]) \/ (In id demo_ids /\ reqs = []).
Proof.
  assert (A : match demo_gen ("p", "Root") demo_root with Done s r _ => r = [("", "Mid"); ("q", "Part"); ("meta", "Time"); ("", "Common")] /\ k_ref (s_kw s) = None | Panic => False end) by (vm_compute; auto).
  assert (B : match demo_gen ("p", "Mid") demo_mid with Done _ r _ => r = [("", "Size")] | Panic => False end) by (vm_compute; reflexivity).
  assert (C : match demo_gen ("p", "Size") demo_size with Done _ r _ => r = [] | Panic => False end) by (vm_compute; reflexivity).
  assert (D : match demo_gen ("p", "Common") demo_common with Done _ r _ => r = [] | Panic => False end) by (vm_compute; reflexivity).
  assert (E : match demo_gen ("q", "Part") demo_part with Done _ r _ => r = [] | Panic => False end) by (vm_compute; reflexivity).
  unfold demo_types, demo_list. cbn [mget].
  repeat match goal with |- (if ident_eqb id ?k then _ else _) = _ -> _ => destruct (ident_eqb id k) eqn:?; [match goal with H : ident_eqb id k = true |- _ => apply FlattenProofs6.ident_eqb_eq in H; subst id end; intros [= <-] G|] end.
  - rewrite G in A. left. split; [reflexivity|exact A].
  - rewrite G in B. right; left. split; [reflexivity|exact B].
  - rewrite G in C. right; right. split; [clear; cbn; auto 10|exact C].
  - rewrite G in D. right; right. split; [clear; cbn; auto 10|exact D].
  - rewrite G in E. right; right. split; [clear; cbn; auto 10|exact E].
  - clear. intros H. discriminate H.
Qed.
Lemma demo_needs id : demo_needed id -> In id demo_ids.
Proof.
  induction 1 as [id [<-|[]]|id ti s reqs errs r N IH P E G I]; [left; reflexivity|].
  destruct (demo_requests _ _ _ _ _ E G) as [(-> & -> & _)|[(-> & ->)|(_ & ->)]]; cbn in I; repeat (destruct I as [<-|I]); try destruct I; clear; cbn; auto 10.
Qed.
Lemma tame_few set : (forall b, match markers_of set b with [] => True | [m] => m <> MExclMax true /\ m <> MExclMin true | _ => False end) -> tame_markers set.
Proof.
  intros H. split; intros b; specialize (H b); destruct (markers_of set b) as [|m [|m' l]]; try contradiction.
  - intros x y z a c E. now destruct x.
  - intros x y z a c E. destruct x as [|? [|]]; [destruct y|..]; discriminate E.
  - split; intros [].
  - destruct H as (A & B). split; intros [X|[]]; auto.
Qed.
Lemma distinct_roles ig pm fs : NoDup (flat_map (fun f => match StructProofs.role_of ig pm f with Member n false _ => [n] | _ => [] end) fs) ->
  forall a f b g c n q q', fs = a ++ f :: b ++ g :: c -> plays ig pm f (Member n false q) -> plays ig pm g (Member n false q') -> False.
Proof.
  intros N a f b g c n q q' -> P P'. apply StructProofs.plays_role in P. apply StructProofs.plays_role in P'. rewrite flat_map_app in N. cbn [flat_map] in N. rewrite <- P, flat_map_app in N. cbn [flat_map] in N. rewrite <- P' in N.
  induction (flat_map _ a) as [|h t IH]; [|inversion N; auto]. inversion N as [|? ? X _]. apply X. apply in_or_app. right. left. reflexivity.
Qed.
Lemma demo_tame : tame (fun l => l) MarkProps.stable false true demo_imports (fun _ => []) demo_types demo_presets ("p", "Root") demo_rank.
Proof.
  assert (Rn : forall id id', renames (fun l => l) MarkProps.stable false true demo_imports (fun _ => []) demo_types id id' -> id = ("p", "Mid") /\ id' = ("p", "Size")).
  { intros id id' (ti & s & reqs & errs & p & n & E & G & I & K & ->). destruct (demo_requests _ _ _ _ _ E G) as [(-> & -> & K')|[(-> & ->)|(_ & ->)]]; [congruence| |destruct I].
    destruct I as [[= <- <-]|[]]. auto. }
  constructor.
  - intros id id' N P (ti & s & reqs & errs & r & E & G & I & ->). destruct (demo_requests _ _ _ _ _ E G) as [(-> & -> & _)|[(-> & ->)|(_ & ->)]]; cbn in I; repeat (destruct I as [<-|I]); try destruct I; cbn; lia.
  - intros id N. apply demo_needs in N. cbn in N. repeat (destruct N as [<-|N]; [split; reflexivity|]). destruct N.
  - intros id id' _ C. assert (X : id = ("p", "Mid") /\ id' = ("p", "Size")); [|destruct X as [-> ->]; discriminate].
    induction C as [id id' C|a b c _ IH1 _ IH2]; [apply Rn, C|]. destruct IH1 as [-> ->], IH2 as [X _]. discriminate X.
  - intros id ti _ _. unfold demo_types, demo_list. cbn [mget].
    repeat match goal with |- (if ident_eqb id ?k then _ else _) = _ -> _ => destruct (ident_eqb id k); [intros [= <-]|] end; [..|discriminate].
    all: (split; [apply tame_few; intros []; vm_compute; auto; split; discriminate|split; [|split; [intros e; discriminate|apply distinct_roles; vm_compute; repeat constructor; cbn; intuition discriminate]]]).
    all: repeat (constructor; [apply tame_few; intros []; vm_compute; auto; split; discriminate|]); constructor.
  - intros p n s. unfold demo_presets. destruct (String.eqb p "meta"); [|discriminate]. cbn [mget]. destruct (String.eqb n "Time"); [|discriminate]. intros [= <-].
    intros x [<-|[]]. repeat split; cbn; try constructor; discriminate.
Qed.

(** Values of the type, and values that are not *)
Definition demo_parts (n : nat) : json := JArr (repeat (JObj [("k", JStr "v")]) n).
Definition demo_value (size parts when : json) : json := JObj [("name", JStr "a"); ("size", size); ("parts", parts); ("when", when); ("kind", JStr "K"); ("more", JBool true)].
Notation demo_conforms := (conforms O_real true (fun _ => []) demo_types demo_presets ("p", "Root")).
Lemma demo_decides v : null_free v = true -> (valid O_real demo_schema v = true <-> demo_conforms v).
Proof.
  intros N. destruct demo_emitted as (E & U & _). generalize dependent demo_schema. intros s E U.
  refine (emit_values (fun l => l) MarkProps.stable false true demo_imports (fun _ => []) demo_types demo_presets (fun l => l) (fun c => N.eqb c 46) (fun c => N.eqb c 32) O_real
    MarkProps.id_order MarkProps.stable_sorts MarkProps.id_order _ ("p", "Root") demo_rank 100 None s [] v demo_tame E U N).
  intros p. unfold demo_presets. destruct (String.eqb p "meta"); repeat constructor; intros [].
Qed.
Example demo_values :
  demo_conforms (demo_value (JNum 1) (demo_parts 2) (JStr "2026")) /\
  (* too small for a type two names away *)
  ~ demo_conforms (demo_value (JNum 0) (demo_parts 2) (JStr "2026")) /\
  (* not among the values of the field *)
  ~ demo_conforms (demo_value (JNum 3) (demo_parts 2) (JStr "2026")) /\
  (* too many *)
  ~ demo_conforms (demo_value (JNum 1) (demo_parts 3) (JStr "2026")) /\
  (* not the format of the schema that is set *)
  ~ demo_conforms (demo_value (JNum 1) (demo_parts 2) (JStr "soon")) /\
  (* a required field, here and in the embedded struct *)
  ~ demo_conforms (JObj [("parts", JArr []); ("kind", JStr "K")]) /\ ~ demo_conforms (JObj [("parts", JArr []); ("name", JStr "a")]) /\
  demo_conforms (JObj [("parts", JArr []); ("name", JStr "a"); ("kind", JStr "K")]) /\
  (* of the wrong type *)
  ~ demo_conforms (JArr []).
Proof.
  repeat split; try (intros C); try (apply demo_decides in C; [|reflexivity]; vm_compute in C; discriminate C); apply demo_decides; vm_compute; reflexivity.
Qed.

(** ** Why the conditions are there *)
Definition emit_of (l : list (ident * tinfo)) (root : ident) : eres :=
  emit (fun l => l) MarkProps.stable false true (fun _ _ => true) (fun _ => []) (mget ident_eqb l) (fun _ => []) (fun l => l) (fun c => N.eqb c 46) (fun c => N.eqb c 32) 100 None root.
(** type Level = int32 with Maximum=5, and a field of it with ExclusiveMaximum=true, which says nothing without a bound of its own:
    the schema of the field rejects 5. *)
Definition bound_list : list (ident * tinfo) :=
  [(("p", "Root"), mkTInfo "Root" "" [] [mkFInfo "Level" true "" (Some "level") [("kubebuilder:validation:ExclusiveMaximum", [VSchema (MExclMax true)])] (EIdent "Level" (TAlias OHere "Level" (TBasic BInt32 "int32")))] EStruct false false);
   (("p", "Level"), mkTInfo "Level" "" [("kubebuilder:validation:Maximum", [VSchema (MMaximum 5)])] [] (EIdent "int32" (TBasic BInt32 "int32")) false false)].
Definition bound_schema : schema := Eval vm_compute in match emit_of bound_list ("p", "Root") with EDone s _ _ _ => s | _ => schema0 end.
Theorem emit_values_exclusive_refuted : emit_of bound_list ("p", "Root") = EDone bound_schema [] [] [] /\
  valid O_real bound_schema (JObj [("level", JNum 5)]) = false /\
  conforms O_real true (fun _ => []) (mget ident_eqb bound_list) (fun _ => []) ("p", "Root") (JObj [("level", JNum 5)]).
Proof.
  split; [vm_compute; reflexivity|]. split; [vm_compute; reflexivity|].
  eapply con_struct; [reflexivity|reflexivity|right; split; reflexivity|reflexivity| | | |].
  - split; [intros m []|]. split; intros _; [right; reflexivity|left; reflexivity].
  - intros l f n i [= <-] [<-|[]] P. apply StructProofs.plays_role in P. vm_compute in P. injection P as -> _. discriminate.
  - intros l f n q x [= <-] [<-|[]] P. apply StructProofs.plays_role in P. vm_compute in P. injection P as -> _. intros [= <-].
    apply holds_type; [intros (w & ws & X); discriminate X|].
    eapply fits_alias; [reflexivity|discriminate|reflexivity| |].
    + split; [intros m [<-|[]]; intros ? ? ? E2; discriminate E2|]. split; intros _; [right; right; split; [reflexivity|exists 5%Z; reflexivity]|right; reflexivity].
    + eapply con_spec; [reflexivity|reflexivity|right; split; reflexivity|discriminate|].
      eapply fits_basic; [reflexivity|reflexivity|]. split; [intros m [<-|[]]; intros n [= <-]; vm_compute; discriminate|].
      split; intros _; [right; right; split; [reflexivity|exists 5%Z; reflexivity]|right; reflexivity].
  - intros f n q [<-|[]] P. apply StructProofs.plays_role in P. vm_compute in P. discriminate P.
Qed.
Print Assumptions emit_values_exclusive_refuted.
(** type Root Foo and type Foo q.Bar in package p; type Bar Foo and type Foo string in package q *)
Definition chain_list : list (ident * tinfo) :=
  [(("p", "Root"), mkTInfo "Root" "" [] [] (EIdent "Foo" (TNamed OHere "Foo" (TBasic BString "string"))) false false);
   (("p", "Foo"), mkTInfo "Foo" "" [] [] (ESel (TNamed (OPkg "q") "Bar" (TBasic BString "string"))) false false);
   (("q", "Bar"), mkTInfo "Bar" "" [] [] (EIdent "Foo" (TNamed OHere "Foo" (TBasic BString "string"))) false false);
   (("q", "Foo"), mkTInfo "Foo" "" [] [] (EIdent "string" (TBasic BString "string")) false false)].
Theorem emit_no_refs_chain_refuted : exists s, emit_of chain_list ("p", "Root") = EDone s [] [] [] /\ ref_in "#/definitions/Foo" s.
Proof. eexists. split; [vm_compute; reflexivity|]. apply ref_here. reflexivity. Qed.
Print Assumptions emit_no_refs_chain_refuted.
