(** * C38: the schema of a type accepts what encoding/json writes for its values. *)
From Coq Require Import List String Ascii Bool ZArith QArith.
From Verif Require Import GoLib GoLibFacts SchemaModel RefModel ErrorsModel ValidSpec MarkModel MarkSpec StructModel FlattenModel NeedModel StructSpec StructProofs MarshalSpec MarshalProofs.
From Verif Require MarkProps.
Import ListNotations.
Open Scope nat_scope.
Open Scope string_scope.
Open Scope list_scope.

Section Encoded.
  Variable order : marker_values -> marker_values.
  Variable sorted : list (string * smarker) -> list (string * smarker).
  Variable allow_dangerous ignore_unexported : bool.
  Variable imports : string -> string -> bool.
  Variable pkg_markers : string -> marker_values.
  Variable types : ident -> option tinfo.
  Variable presets : string -> list (string * schema).
  Variable override : ident -> json -> Prop.
  Variable base64 : string -> Prop.
  Variable O : string -> oracles.
  Notation schema_of := (schema_of order sorted allow_dangerous ignore_unexported imports pkg_markers types presets).
  Notation generated := (generated order sorted allow_dangerous ignore_unexported imports pkg_markers).

  (** If the schemas of all types without an override are made without errors, from types without schema markers whose fields are named and required as
      encoding/json has them, then whatever encoding/json writes for a value of a type is accepted by the schema of the type. *)
  Theorem encoded_accepted : is_order order -> sorts sorted -> sensible O base64 schema_of ->
    (forall id j, override id j -> exists s, mget String.eqb (presets (fst id)) (snd id) = Some s /\ valid (O (fst id)) s j = true) ->
    (forall id ti, uncovered types presets id = Some ti -> ti_json ti = false ->
      proper_type ignore_unexported (pkg_markers (fst id)) ti /\ exists s reqs, generated id ti = Done s reqs []) ->
    forall id j, encodes (uncovered types presets) override base64 id j -> exists s, schema_of id = Some s /\ valid (O (fst id)) s j = true.
  Proof.
    intros Ho Hs Sens Over Good.
    exact (proj1 (encoding_accepted order sorted Ho Hs allow_dangerous ignore_unexported imports pkg_markers types presets override base64 O Sens Over Good)).
  Qed.
End Encoded.
Print Assumptions encoded_accepted.

(** ** A case: an embedded struct, a text type, an optional pointer, a map, bytes *)
Definition field (name tag : string) (t : texpr) : finfo := mkFInfo name true "" (Some tag) [] t.
Definition strct (name : string) (fs : list finfo) : tinfo := mkTInfo name "" [] fs EStruct false false.
Definition str_t : texpr := EIdent "string" (TBasic BString "string").
Definition case_types (id : ident) : option tinfo :=
  if ident_eqb id ("a", "Spec") then
    Some (strct "Spec" [field "Name" "name" str_t; field "Size" "size,omitempty" (EStar (EIdent "int32" (TBasic BInt32 "int32"))); field "" ",inline" (EIdent "Meta" (TNamed OHere "Meta" TOther));
      field "When" "when" (EMap (TBasic BString "string") (EArray false (ESel (TNamed (OPkg "t") "Time" TOther))))])
  else if ident_eqb id ("a", "Meta") then Some (strct "Meta" [field "Raw" "raw" (EArray false (EIdent "byte" (TBasic BUint8 "byte")))])
  else if ident_eqb id ("t", "Time") then Some (mkTInfo "Time" "" [] [] EStruct false true)
  else None.
Definition any_oracles : oracles := mkOracles (fun _ _ => true) (fun _ => 0%Z) (fun _ _ => true) (fun _ _ => true) (fun _ _ => true) (fun _ _ => true) (fun _ => true) (fun _ _ => true).
Definition case_json : json := JObj [("name", JStr "x"); ("raw", JStr "AA=="); ("when", JObj [("first", JArr [JStr "now"])])].
Definition no_override (_ : ident) (_ : json) : Prop := False.
Definition case_schema (id : ident) : option schema := schema_of (fun l => l) MarkProps.stable false true (fun _ _ => true) (fun _ => []) case_types (fun _ => []) id.

Lemma goes_to f tag n opts p : fi_json f = Some tag -> tag <> "-" -> split_char "," tag = n :: opts -> fi_exported f = true -> goes f p ->
  match p with
  | Nowhere => False
  | Under k omit => (k = n /\ n <> "" \/ n = "" /\ k = fi_name f /\ k <> "") /\ (omit = true <-> In "omitempty" opts)
  | Spread => n = "" /\ fi_name f = ""
  end.
Proof.
  intros E D S X G. destruct G as [E'|_ X'|tag' n' opts' o E' _ T N _ Q|tag' opts' o E' T N _ Q|E'|tag' opts' E' T N|E']; try congruence; (assert (tag' = tag) as -> by congruence); apply parts_split in T; rewrite S in T; injection T as -> ->; auto.
Qed.
Ltac place f n opts := match goal with H : goes (mkFInfo _ _ _ (Some ?tag) _ _) _ |- _ => apply (goes_to _ tag n opts) in H; [|reflexivity|discriminate|reflexivity|reflexivity]; cbn in H end.

Notation case_encodes := (encodes (uncovered case_types (fun _ => [])) no_override (fun s => s = "AA==")).
Lemma meta_case l : mget String.eqb l "raw" = Some (JStr "AA==") -> case_encodes ("a", "Meta") (JObj l).
Proof.
  intros R. eapply enc_struct; try reflexivity.
  - intros f n omit [<-|[]] G _. apply (goes_to _ "raw" "raw" []) in G; [|reflexivity|discriminate|reflexivity|reflexivity]. destruct G as [[[-> _]|[[=] _]] _]. congruence.
  - intros f n omit v [<-|[]] G E. apply (goes_to _ "raw" "raw" []) in G; [|reflexivity|discriminate|reflexivity|reflexivity]. destruct G as [[[-> _]|[[=] _]] _].
    assert (v = JStr "AA==") as -> by congruence. apply wr_bytes; reflexivity.
  - intros f [<-|[]] G. apply (goes_to _ "raw" "raw" []) in G; [|reflexivity|discriminate|reflexivity|reflexivity]. destruct G as [[=] _].
Qed.
Ltac placed G tag n opts := apply (goes_to _ tag n opts) in G; [|reflexivity|discriminate|reflexivity|reflexivity]; cbn in G.
Example case_encoded : case_encodes ("a", "Spec") case_json /\
  sensible (fun _ => any_oracles) (fun s => s = "AA==") case_schema /\
  (forall id ti, uncovered case_types (fun _ => []) id = Some ti -> ti_json ti = false -> proper_type true [] ti /\
     exists s reqs, generated (fun l => l) MarkProps.stable false true (fun _ _ => true) (fun _ => []) id ti = Done s reqs []) /\
  (exists s, case_schema ("a", "Spec") = Some s /\ valid any_oracles s case_json = true /\ valid any_oracles s (JObj []) = false /\ valid any_oracles s (JObj [("name", JNum 1); ("when", JObj [])]) = false).
Proof.
  split; [|split; [|split]].
  - eapply enc_struct; try reflexivity; change (ti_fields _) with (match case_types ("a", "Spec") with Some ti => ti_fields ti | None => [] end) || idtac.
    + intros f n omit [<-|[<-|[<-|[<-|[]]]]] G K.
      * placed G "name" "name" (@nil string). destruct G as [[[-> _]|[[=] _]] _]. discriminate.
      * placed G "size,omitempty" "size" ["omitempty"]. destruct G as [_ [_ G]]. rewrite G in K; [discriminate|left; reflexivity].
      * placed G ",inline" "" ["inline"]. destruct G as [[[_ G]|(_ & -> & G)] _]; congruence.
      * placed G "when" "when" (@nil string). destruct G as [[[-> _]|[[=] _]] _]. discriminate.
    + intros f n omit v [<-|[<-|[<-|[<-|[]]]]] G E.
      * placed G "name" "name" (@nil string). destruct G as [[[-> _]|[[=] _]] _]. injection E as <-. apply wr_basic, bj_string.
      * placed G "size,omitempty" "size" ["omitempty"]. destruct G as [[[-> _]|[[=] _]] _]. discriminate.
      * placed G ",inline" "" ["inline"]. destruct G as [[[_ G]|(_ & -> & G)] _]; congruence.
      * placed G "when" "when" (@nil string). destruct G as [[[-> _]|[[=] _]] _]. injection E as <-. apply wr_map. intros k x [K|[]]. injection K as <- <-.
        apply wr_array; [intros [[=] _]|]. intros x [<-|[]]. apply wr_sel; [discriminate|]. eapply enc_text; reflexivity.
    + intros f [<-|[<-|[<-|[<-|[]]]]] G.
      * placed G "name" "name" (@nil string). destruct G as [[=] _].
      * placed G "size,omitempty" "size" ["omitempty"]. destruct G as [[=] _].
      * apply wr_here. apply meta_case. reflexivity.
      * placed G "when" "when" (@nil string). destruct G as [[=] _].
  - split; reflexivity.
  - intros id ti E J. assert (U : forall ms, ms = [] -> unmarked ms) by (intros ms -> ? ? ? []).
    assert (Pf : forall name tag n opts t, split_char "," tag = n :: opts -> (n = "" <-> name = "") -> (n = "" -> ~ In "omitempty" opts) -> (In "inline" opts -> n = "") -> faithful t -> proper true [] (field name tag t)).
    { intros name tag n opts t S N Om In' Fa. split; [apply U; reflexivity|]. split; [exact Fa|]. split; [discriminate|]. intros tag' n' opts' E' T. injection E' as <-. apply parts_split in T. rewrite S in T. injection T as <- <-.
      split; [exact In'|]. split; [intros K; apply N, K|]. intros i P. inversion P as [|? ?|? ?|tag' n' opts' i' o q' NH J' ND TP I' O' Q]; subst. injection J' as <-. apply parts_split in TP. rewrite S in TP. injection TP as <-.
      inversion Q; subst; repeat match goal with M : marked _ _ |- _ => destruct M as (? & ? & M); discriminate M end. destruct i, o; try discriminate.
      split; [intros ->; destruct I' as [_ I']; discriminate I'; auto|]. intros K. destruct O' as [_ O']. discriminate (O' K). }
    unfold uncovered, case_types in E. cbn [mget] in E. destruct (ident_eqb id ("a", "Spec")) eqn:E1; [|destruct (ident_eqb id ("a", "Meta")) eqn:E2; [|destruct (ident_eqb id ("t", "Time")) eqn:E3; [|discriminate]]]; injection E as <-.
    + split; [|eexists _, _; vm_compute; reflexivity]. split; [apply U; reflexivity|]. split; [|exact Logic.I]. intros _. repeat apply Forall_cons; try apply Forall_nil.
      * eapply Pf; [reflexivity| | | |]; cbn; intuition congruence.
      * eapply Pf; [reflexivity| | | |]; cbn; intuition congruence.
      * eapply Pf; [reflexivity| | | |]; cbn; intuition congruence.
      * eapply Pf; [reflexivity| | | |]; cbn; intuition congruence.
    + split; [|eexists _, _; vm_compute; reflexivity]. split; [apply U; reflexivity|]. split; [|exact Logic.I]. intros _. repeat apply Forall_cons; try apply Forall_nil.
      eapply Pf; [reflexivity| | | |]; cbn; intuition congruence.
    + split; [|eexists _, _; vm_compute; reflexivity]. split; [apply U; reflexivity|]. split; [|exact Logic.I]. intros _. constructor.
  - eexists. split; [vm_compute; reflexivity|]. repeat split.
Qed.

(** ** Where it fails *)
Definition made (ignore_unexported : bool) (ti : tinfo) : res schema := info_to_schema (fun l => l) MarkProps.stable (fun _ => true) false ignore_unexported [] ti.
Notation written ti j := (encodes (fun id => if ident_eqb id ("a", "T") then Some ti else None) no_override (fun _ => True) ("a", "T") j).
Ltac one_field tag n opts := eapply enc_struct; [reflexivity|reflexivity|reflexivity|reflexivity| | |];
  [intros f k omit [<-|[]] G K; placed G tag n opts|intros f k omit v [<-|[]] G E; placed G tag n opts|intros f [<-|[]] G; placed G tag n opts].
(** Bytes under another name ([]uint8, or a slice of a type declared as byte): written in base64, the schema wants a list of integers. *)
Theorem encoded_bytes_refuted : exists ti j s, written ti j /\ made true ti = Done s [] [] /\ forall O, valid O s j = false.
Proof.
  exists (strct "T" [field "Data" "data" (EArray false (EIdent "uint8" (TBasic BUint8 "uint8")))]), (JObj [("data", JStr "AA==")]). eexists. split; [|split; [vm_compute; reflexivity|]].
  - one_field "data" "data" (@nil string).
    + destruct G as [[[-> _]|[[=] _]] _]. discriminate.
    + destruct G as [[[-> _]|[[=] _]] _]. injection E as <-. apply wr_bytes; reflexivity || exact Logic.I.
    + destruct G as [[=] _].
  - intros O. cbn. reflexivity.
Qed.
Print Assumptions encoded_bytes_refuted.
(** A field whose tag has no name: written under the name of the field, the schema has it inline. *)
Theorem encoded_nameless_refuted : exists ti j s, written ti j /\ made true ti = Done s [] [] /\ (forall O l, valid O s (JObj l) = false) /\ exists l', j = JObj l'.
Proof.
  exists (strct "T" [field "Count" ",omitempty" (EIdent "int" (TBasic BInt "int"))]), (JObj [("Count", JNum 5)]). eexists. split; [|split; [vm_compute; reflexivity|]].
  - one_field ",omitempty" "" ["omitempty"].
    + destruct G as [_ [_ G]]. rewrite G in K; [discriminate|left; reflexivity].
    + destruct G as [[[_ G]|(_ & -> & _)] _]; [congruence|]. injection E as <-. apply wr_basic. apply (bj_int BInt (- 2 ^ 63) (2 ^ 63 - 1) 5); [reflexivity|]. split; discriminate.
    + destruct G as [_ [=]].
  - split; [|eexists; reflexivity]. intros O l. cbn. unfold kw_ok, kw_checks. cbn. rewrite ?andb_false_r. reflexivity.
Qed.
Print Assumptions encoded_nameless_refuted.
(** An unexported field with a tag, unless they are ignored: never written, yet required. *)
Theorem encoded_unexported_refuted : exists ti j s, written ti j /\ made false ti = Done s [] [] /\ forall O, valid O s j = false.
Proof.
  exists (strct "T" [mkFInfo "size" false "" (Some "size") [] str_t]), (JObj []). eexists. split; [|split; [vm_compute; reflexivity|]].
  - eapply enc_struct; try reflexivity.
    + intros f n omit [<-|[]] G K. exfalso. inversion G; subst; cbn in *; try discriminate. match goal with H : _ \/ _ |- _ => destruct H; discriminate end.
    + discriminate.
    + intros f [<-|[]] G. inversion G; subst; discriminate.
  - intros O. cbn. unfold kw_ok, kw_checks. cbn. rewrite ?andb_false_r. reflexivity.
Qed.
Print Assumptions encoded_unexported_refuted.
(** Large unsigned numbers, if the format is checked: uint32 has the format of int32. *)
Theorem encoded_unsigned_refuted : exists ti j s, written ti j /\ made true ti = Done s [] [] /\
  forall O, (forall z, (2 ^ 31 <= z)%Z -> o_format O "int32" (JNum (inject_Z z)) = false) -> valid O s j = false.
Proof.
  exists (strct "T" [field "N" "n" (EIdent "uint32" (TBasic BUint32 "uint32"))]), (JObj [("n", JNum (inject_Z (2 ^ 32 - 1)))]). eexists. split; [|split; [vm_compute; reflexivity|]].
  - one_field "n" "n" (@nil string).
    + destruct G as [[[-> _]|[[=] _]] _]. discriminate.
    + destruct G as [[[-> _]|[[=] _]] _]. injection E as <-. apply wr_basic. apply (bj_int BUint32 0 (2 ^ 32 - 1)); [reflexivity|]. split; discriminate.
    + destruct G as [[=] _].
  - intros O H. specialize (H (2 ^ 32 - 1)%Z ltac:(discriminate)). cbn. unfold kw_ok, kw_checks. cbn. cbn in H. rewrite H. reflexivity.
Qed.
Print Assumptions encoded_unsigned_refuted.
(** Nil slices are written as null; the schema of a slice does not accept it. *)
Theorem encoded_nil_refuted : exists s, made true (strct "T" [field "Names" "names" (EArray false str_t)]) = Done s [] [] /\ forall O, valid O s (JObj [("names", JNull)]) = false.
Proof. eexists. split; [vm_compute; reflexivity|]. intros O. cbn. reflexivity. Qed.
Print Assumptions encoded_nil_refuted.
