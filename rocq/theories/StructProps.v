(** * C11: the schema of a struct. C39: types the generator crashes on. *)
From Coq Require Import List String Ascii Bool ZArith QArith_base.
Open Scope nat_scope.
From Verif Require Import GoLib GoLibFacts MapFacts SchemaModel RefModel ErrorsModel ValidSpec MarkModel MarkSpec StructModel FlattenModel NeedModel StructSpec StructProofs StructCrash.
From Verif Require MarkProps.
Import ListNotations.
Open Scope string_scope.
Open Scope list_scope.

Section Struct.
  Variable order : marker_values -> marker_values.
  Variable sorted : list (string * smarker) -> list (string * smarker).
  Variable imports : string -> bool.
  Variable allow_dangerous ignore_unexported : bool.
  Variable pkg_markers : marker_values.
  Notation info := (info_to_schema order sorted imports allow_dangerous ignore_unexported pkg_markers).
  Notation plays := (plays ignore_unexported pkg_markers).
  Notation contributes := (contributes order sorted imports allow_dangerous ignore_unexported pkg_markers).
  (** A struct type without marshalling methods *)
  Definition struct_type (ti : tinfo) : Prop := ti_raw ti = EStruct /\ ti_json ti = false /\ ti_text ti = false.

  (** Each field has exactly one role. *)
  Theorem field_role f : exists r, plays f r /\ forall r', plays f r' -> r' = r.
  Proof. destruct (role_exists ignore_unexported pkg_markers f) as [r H]. exists r. split; [exact H|]. intros r' H'. exact (role_unique _ _ _ _ _ H' H). Qed.

  (** The schema of a struct has exactly what its fields contribute: the required names in the order of the fields, one property per name (the last field's),
      the inline fields in allOf, the documentation; and fields without a tag are reported. *)
  Theorem struct_schema ti s reqs errs : is_order order -> sorts sorted -> struct_type ti -> info ti = Done s reqs errs ->
    exists xs, Forall2 contributes (ti_fields ti) xs /\
      k_required (s_kw s) = flat_map (fun x => required_by (fst x)) xs /\
      (forall n p, mget String.eqb (s_props s) n = Some p <-> last_named n xs p) /\ NoDup (map fst (s_props s)) /\
      s_allOf s = flat_map inlined xs /\ k_desc (s_kw s) = ti_doc ti /\
      (~ In KType (map keyword_of (markers_of (ti_markers ti) false)) -> k_type (s_kw s) = "object") /\
      (forall n, In (GNoTag n) errs <-> exists f, In f (ti_fields ti) /\ fi_name f = n /\ plays f Untagged).
  Proof.
    intros Ho Hs (Er & Ej & Et) H. unfold info_to_schema in H. rewrite Ej, Et in H. unfold spec_to_schema in H. rewrite Er in H. cbn [type_to_schema] in H.
    apply bind_done in H as (s1 & r1 & e1 & r2 & e2 & H1 & H2 & -> & ->).
    apply fields_parts in H1 as (xs & F & -> & T). set (obj := set_type schema0 "object") in *.
    pose proof (with_markers_done _ _ _ _ _ _ _ H2) as (-> & _ & Hn).
    set (s2 := set_desc (fold_left add_part xs obj) (ti_doc ti)) in *.
    pose proof (marked_parts order sorted Ho Hs (ti_markers ti) s2) as M. cbv zeta in M. destruct M as (_ & Mr & Md & Mp & Ma).
    assert (Ok : Forall part_ok xs). { clear -F. induction F as [|f x fs xs C F IH]; constructor; [exact (con_ok _ _ _ _ _ _ _ _ C)|exact IH]. }
    exists xs. split; [exact F|]. split; [|split; [|split; [|split; [|split; [|split]]]]].
    - rewrite Mr. change (k_required (s_kw s2)) with (k_required (s_kw (fold_left add_part xs obj))). rewrite parts_required. cbn [obj s_kw set_type with_kw k_required schema0 kw0 set_k_type app].
      clear -Ok. induction Ok as [|x xs O _ IH]; cbn [flat_map]; [reflexivity|]. rewrite IH. f_equal. destruct x as [[| |n i q] [p|]]; try reflexivity; destruct O.
    - intros n p. rewrite Mp. change (s_props s2) with (s_props (fold_left add_part xs obj)). rewrite (parts_props n xs Ok obj p). cbn. split; [intros [K|[_ [=]]]; exact K|auto].
    - rewrite Mp. change (s_props s2) with (s_props (fold_left add_part xs obj)). apply parts_props_nodup. constructor.
    - rewrite Ma. change (s_allOf s2) with (s_allOf (fold_left add_part xs obj)). rewrite parts_allOf. reflexivity.
    - rewrite Md. reflexivity.
    - intros K. destruct (MarkProps.markers_only order sorted (ti_markers ti) s2 Ho Hs) as [[U _] _]. specialize (U KType K). cbn [agree] in U.
      change (s_kw (set_items (fst (apply_markers order sorted (ti_markers ti) s2)) (s_items s2))) with (s_kw (fst (apply_markers order sorted (ti_markers ti) s2))) in U.
      rewrite <- U. change (k_type (s_kw s2)) with (k_type (s_kw (fold_left add_part xs obj))). rewrite parts_same. reflexivity.
    - intros n. rewrite in_app_iff, T. split; [|auto]. intros [K|K]; [exact K|]. exfalso. apply (Hn _ K). exists n. reflexivity.
  Qed.

  (** A name is required exactly if a field with that name is. *)
  Theorem required_names ti s reqs errs : is_order order -> sorts sorted -> struct_type ti -> info ti = Done s reqs errs ->
    forall n, In n (k_required (s_kw s)) <-> exists f inline, In f (ti_fields ti) /\ plays f (Member n inline true).
  Proof.
    intros Ho Hs St H n. destruct (struct_schema ti s reqs errs Ho Hs St H) as (xs & F & R & _). rewrite R. clear -F. rewrite in_flat_map. split.
    - intros (x & Hx & Hr). revert Hx. induction F as [|f x' fs xs C F IH]; intros Hx; [destruct Hx|]. destruct Hx as [->|Hx].
      + destruct C as [C _]. destruct (fst x) as [| |m i []]; cbn [required_by] in Hr; try contradiction. destruct Hr as [->|[]]. exists f, i. split; [left; reflexivity|exact C].
      + destruct (IH Hx) as (g & i & I & P). exists g, i. split; [right; exact I|exact P].
    - intros (f & i & I & P). induction F as [|f' x' fs xs C F IH]; [destruct I|]. destruct I as [->|I].
      + exists x'. split; [left; reflexivity|]. destruct C as [C _]. rewrite (role_unique _ _ _ _ _ C P). left. reflexivity.
      + destruct (IH I) as (x & Hx & Hr). exists x. split; [right; exact Hx|exact Hr].
  Qed.
  (** The properties are exactly the names of the fields that are neither skipped nor inline. *)
  Theorem property_names ti s reqs errs : is_order order -> sorts sorted -> struct_type ti -> info ti = Done s reqs errs ->
    forall n, In n (map fst (s_props s)) <-> exists f required, In f (ti_fields ti) /\ plays f (Member n false required).
  Proof.
    intros Ho Hs St H n. destruct (struct_schema ti s reqs errs Ho Hs St H) as (xs & F & _ & P & _).
    assert (K : In n (map fst (s_props s)) <-> exists p, last_named n xs p).
    { split.
      - intros K. destruct (mget String.eqb (s_props s) n) as [p|] eqn:E; [exists p; apply P, E|]. exfalso. apply (mget_none _ _ _ String.eqb_eq) in E. contradiction.
      - intros (p & L). apply P in L. apply (mget_in _ _ _ String.eqb_eq) in L. apply (in_map fst) in L. exact L. }
    rewrite K. clear -F. split.
    - intros (p & pre & q & post & -> & _).
      assert (Hx : In (Member n false q, Some p) (pre ++ (Member n false q, Some p) :: post)) by (apply in_or_app; right; left; reflexivity).
      revert Hx F. generalize (pre ++ (Member n false q, Some p) :: post). intros xs Hx F. induction F as [|f x' fs xs C F IH]; [destruct Hx|]. destruct Hx as [->|Hx].
      + exists f, q. split; [left; reflexivity|apply C].
      + destruct (IH Hx) as (g & q' & I & Pl). exists g, q'. split; [right; exact I|exact Pl].
    - intros (f & q & I & Pl). induction F as [|f' x' fs xs C F IH]; [destruct I|].
      assert (D : (exists p, last_named n xs p) \/ forall q o, ~ In (Member n false q, o) xs).
      { clear -F. induction F as [|f x fs xs C F IH]; [right; intros ? ? []|]. destruct IH as [(p & pre & q & post & -> & L)|N]; [left; exists p, (x :: pre), q, post; split; [reflexivity|exact L]|].
        destruct x as [[| |m i q] o]; try (right; intros q' o' [K|K]; [discriminate|exact (N _ _ K)]).
        destruct i; [right; intros q' o' [K|K]; [discriminate|exact (N _ _ K)]|]. destruct (string_dec m n) as [->|Hm]; [|right; intros q' o' [K|K]; [congruence|exact (N _ _ K)]].
        left. destruct C as [_ C]. destruct o as [p|]; [|destruct C]. exists p, [], q, xs. split; [reflexivity|exact N]. }
      destruct D as [(p & pre & q' & post & -> & L)|N]; [exists p, (x' :: pre), q', post; split; [reflexivity|exact L]|].
      destruct I as [->|I]; [|destruct (IH I) as (p & pre & q' & post & -> & _); exfalso; eapply N; apply in_or_app; right; left; reflexivity].
      destruct C as [C1 C2]. pose proof (role_unique _ _ _ _ _ C1 Pl) as E. destruct x' as [r o]. cbn [fst] in E. subst r. destruct o as [p|]; [|destruct C2]. exists p, [], q, xs. split; [reflexivity|exact N].
  Qed.
  (** A required name has a property, if no inline field is required. *)
  Theorem required_declared ti s reqs errs : is_order order -> sorts sorted -> struct_type ti -> info ti = Done s reqs errs ->
    (forall f n, In f (ti_fields ti) -> ~ plays f (Member n true true)) -> forall n, In n (k_required (s_kw s)) -> In n (map fst (s_props s)).
  Proof.
    intros Ho Hs St H N n K. rewrite (required_names ti s reqs errs Ho Hs St H) in K. rewrite (property_names ti s reqs errs Ho Hs St H).
    destruct K as (f & [] & I & P); [destruct (N f n I P)|]. exists f, true. auto.
  Qed.

  (** ** Crashes *)
  (** The generator crashes on a struct exactly if one of the fields that count has a type it crashes on: a struct without a name, a predeclared interface
      (any, error), an alias of a type without a name, a type of a package that is not imported directly; also inside arrays, maps and pointers. *)
  Theorem struct_crash ti : struct_type ti ->
    (info ti = Panic <-> exists f name inline required, In f (ti_fields ti) /\ plays f (Member name inline required) /\
       ~ marked (fi_markers f) "kubebuilder:validation:Schemaless" /\ crashes imports (fi_type f)).
  Proof.
    intros (Er & Ej & Et). unfold info_to_schema. rewrite Ej, Et, spec_panic. split.
    - intros [(_ & f & I & (n & i & q & P) & M & C)|[_ N]]; [exists f, n, i, q; auto|]. exfalso. apply N. exists 0. exact Er.
    - intros (f & n & i & q & I & P & M & C). left. split; [exact Er|]. exists f. split; [exact I|]. split; [eauto|auto].
  Qed.
  (** Other types: exactly on those; a struct behind pointers is only reported. *)
  Theorem type_crash ti : (forall k, ti_raw ti <> Nat.iter k EStar EStruct) -> ti_json ti = false -> ti_text ti = false -> (info ti = Panic <-> crashes imports (ti_raw ti)).
  Proof.
    intros N Ej Et. unfold info_to_schema. rewrite Ej, Et, spec_panic. split.
    - intros [[E _]|[C _]]; [destruct (N 0 E)|exact C].
    - intros C. right. split; [exact C|]. intros (k & E). exact (N k E).
  Qed.
End Struct.
Print Assumptions field_role.
Print Assumptions struct_schema.
Print Assumptions required_names.
Print Assumptions property_names.
Print Assumptions required_declared.
Print Assumptions struct_crash.
Print Assumptions type_crash.

(** ** Cases *)
Definition run (ti : tinfo) : res schema := info_to_schema (fun l => l) MarkProps.stable (fun _ => true) false true [] ti.
Definition basic (k : bkind) (n : string) : texpr := EIdent n (TBasic k n).
Definition str_t : texpr := basic BString "string".
Definition case_struct : tinfo := mkTInfo "Spec" "a spec" []
  [ mkFInfo "Name" true "the name" (Some "name") [] str_t;
    mkFInfo "Size" true "" (Some "size,omitempty") [("kubebuilder:validation:Minimum", [VSchema (MMinimum (QArith_base.inject_Z 1))])] (EStar (basic BInt32 "int32"));
    mkFInfo "Data" true "" (Some "data") [("optional", [VOther])] (EArray false (basic BUint8 "byte"));
    mkFInfo "Forced" true "" (Some "forced,omitempty") [("required", [VOther])] (EMap (TBasic BString "string") (EArray false str_t));
    mkFInfo "" true "" (Some ",inline") [] (ESel (TNamed (OPkg "meta") "TypeMeta" TOther));
    mkFInfo "Skip" true "" (Some "-") [] (EIdent "any" (TAlias OUniverse "any" TOther));
    mkFInfo "private" false "" None [] EStruct;
    mkFInfo "Bare" true "" None [] str_t ] EStruct false false.
Example case_struct_schema : struct_type case_struct /\ exists s reqs errs, run case_struct = Done s reqs errs /\
  k_required (s_kw s) = ["name"; "forced"] /\ map fst (s_props s) = ["name"; "size"; "data"; "forced"] /\ List.length (s_allOf s) = 1 /\ errs = [GNoTag "Bare"] /\ reqs = [("meta", "TypeMeta")] /\
  k_desc (s_kw s) = "a spec".
Proof. split; [repeat split|]. eexists _, _, _. split; [vm_compute; reflexivity|]. repeat split. Qed.

(** A required inline field makes "" required: no object is valid then, except those with the empty key. *)
Theorem inline_required_refuted : exists ti s reqs, struct_type ti /\ run ti = Done s reqs [] /\ In "" (k_required (s_kw s)) /\ ~ In "" (map fst (s_props s)) /\
  forall O l, mget String.eqb l "" = None -> valid O s (JObj l) = false.
Proof.
  exists (mkTInfo "T" "" [] [mkFInfo "" true "" (Some ",inline") [("required", [VOther])] (ESel (TNamed (OPkg "meta") "TypeMeta" TOther))] EStruct false false).
  eexists _, _. split; [repeat split|]. split; [vm_compute; reflexivity|]. split; [left; reflexivity|]. split; [intros []|].
  intros O l E. cbn. unfold kw_ok, kw_checks, has_key. cbn. rewrite E. cbn. rewrite ?andb_false_r. reflexivity.
Qed.
Print Assumptions inline_required_refuted.
(** A field with a name but none in its tag is taken for inline: encoding/json writes it under its Go name. *)
Theorem tag_without_name_refuted : exists ti s reqs, struct_type ti /\ run ti = Done s reqs [] /\ map fi_name (ti_fields ti) = ["Spec"] /\ s_props s = [] /\ List.length (s_allOf s) = 1.
Proof.
  exists (mkTInfo "T" "" [] [mkFInfo "Spec" true "" (Some ",omitempty") [] (EIdent "S" (TNamed OHere "S" TOther))] EStruct false false).
  eexists _, _. split; [repeat split|]. split; [vm_compute; reflexivity|]. repeat split.
Qed.
Print Assumptions tag_without_name_refuted.
(** Two fields with one name: both count for required, the last one gives the property; no error. *)
Theorem same_name_refuted : exists ti s reqs, struct_type ti /\ run ti = Done s reqs [] /\ k_required (s_kw s) = ["a"; "a"] /\ map fst (s_props s) = ["a"].
Proof.
  exists (mkTInfo "T" "" [] [mkFInfo "A" true "" (Some "a") [] str_t; mkFInfo "B" true "" (Some "a") [] (basic BInt "int")] EStruct false false).
  eexists _, _. split; [repeat split|]. split; [vm_compute; reflexivity|]. repeat split.
Qed.
Print Assumptions same_name_refuted.
(** Crashes on ordinary declarations: [type T struct { F struct{} `json:"f"` }], [F any], and [type L = []string; type T struct { F L `json:"f"` }]. *)
Theorem no_crash_refuted : Forall (fun t => run (mkTInfo "T" "" [] [mkFInfo "F" true "" (Some "f") [] t] EStruct false false) = Panic)
  [EStruct; EArray false EStruct; EStar EStruct; EIdent "any" (TAlias OUniverse "any" TOther); EIdent "error" (TNamed OUniverse "error" TOther); EIdent "L" (TAlias OHere "L" TOther)].
Proof. repeat constructor. Qed.
Print Assumptions no_crash_refuted.
(** A type with markers behind a pointer has them applied twice: its rules are doubled. *)
Theorem pointer_markers_refuted : exists ti s reqs, ti_raw ti = EStar (EIdent "S" (TNamed OHere "S" TOther)) /\ run ti = Done s reqs [] /\
  mget String.eqb (ti_markers ti) "kubebuilder:validation:XValidation" = Some [VSchema (MXValidation (mkVrule "self.a" "" "" "" "" None))] /\ List.length (k_x_validations (s_kw s)) = 2.
Proof.
  exists (mkTInfo "T" "" [("kubebuilder:validation:XValidation", [VSchema (MXValidation (mkVrule "self.a" "" "" "" "" None))])] [] (EStar (EIdent "S" (TNamed OHere "S" TOther))) false false).
  eexists _, _. split; [reflexivity|]. split; [vm_compute; reflexivity|]. repeat split.
Qed.
Print Assumptions pointer_markers_refuted.
