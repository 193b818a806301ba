(** * C37: the schemas of the types asked for, and of those they refer to. *)
From Coq Require Import List String Bool.
From Verif Require Import GoLib SchemaModel RefModel MarkModel MarkSpec StructModel FlattenModel NeedModel StructSpec StructProofs NeedProofs.
From Verif Require MarkProps.
Import ListNotations.
Open Scope string_scope.
Open Scope list_scope.

Section Requests.
  Variable order : marker_values -> marker_values.
  Variable sorted : list (string * smarker) -> list (string * smarker).
  Variable allow_dangerous ignore_unexported : bool.
  Variable imports : string -> string -> bool.
  Variable pkg_markers : string -> marker_values.
  Variable types : ident -> option tinfo.
  Variable presets : string -> list (string * schema).
  Hypothesis presets_are_maps : forall p, NoDup (map fst (presets p)).
  Notation all := (need_all order sorted allow_dangerous ignore_unexported imports pkg_markers types presets).
  Notation preset id := (mget String.eqb (presets (fst id)) (snd id)).
  Notation gen := (generated order sorted allow_dangerous ignore_unexported imports pkg_markers).
  Notation schema_of := (schema_of order sorted allow_dangerous ignore_unexported imports pkg_markers types presets).
  Notation needed := (needed order sorted allow_dangerous ignore_unexported imports pkg_markers types presets).
  Notation start := (mkPS [] [] []).
  Notation known st id := (mget ident_eqb (ps_schemata st) id).

  (** Requests end, even for types that refer to each other: the calls nest at most once per type. *)
  Theorem schema_requests_end U ids : (forall id, types id <> None -> In id U) -> forall n, List.length U < n -> all n ids start <> NFuel.
  Proof.
    intros HU n L. apply (all_fuel order sorted allow_dangerous ignore_unexported imports pkg_markers types presets presets_are_maps U HU).
    eapply PeanoNat.Nat.le_lt_trans; [|exact L]. apply unknowns_all. 
  Qed.
  (** They panic exactly if the schema of some type needed cannot be made. *)
  Theorem schema_requests_panic n ids : all n ids start <> NFuel ->
    (all n ids start = NPanic <-> exists id ti, needed ids id /\ preset id = None /\ types id = Some ti /\ gen id ti = Panic).
  Proof.
    intros F. split.
    - intros H. exact (all_panic order sorted allow_dangerous ignore_unexported imports pkg_markers types presets presets_are_maps n ids ids _ (fun _ h => h) (inv_start _ _ _ _ _ _ _ _ _) H).
    - intros H. destruct (all n ids start) as [st| |] eqn:E; [|reflexivity|congruence].
      exfalso. exact (done_no_panic order sorted allow_dangerous ignore_unexported imports pkg_markers types presets presets_are_maps n ids st E H).
  Qed.
  (** Stored are exactly the types needed that exist, and the overrides of their packages, each with its one schema: nothing unfinished, nothing else. *)
  Theorem schema_requests_result n ids st : all n ids start = NDone st -> forall id s,
    known st id = Some s <-> schema_of id = Some s /\ (needed ids id \/ (preset id <> None /\ exists id', needed ids id' /\ fst id' = fst id)).
  Proof. exact (all_known order sorted allow_dangerous ignore_unexported imports pkg_markers types presets presets_are_maps n ids st). Qed.
  (** Errors are exactly those of the types needed, with their package: the ones that do not exist, and what went wrong making the others' schemas. *)
  Theorem schema_requests_errors n ids st : all n ids start = NDone st -> forall p x, In (p, x) (ps_errs st) <->
    exists id, needed ids id /\ fst id = p /\ preset id = None /\
      match types id with
      | None => x = PUnknown (snd id)
      | Some ti => exists s reqs errs e, gen id ti = Done s reqs errs /\ In e errs /\ x = PGen e
      end.
  Proof. exact (all_errors order sorted allow_dangerous ignore_unexported imports pkg_markers types presets presets_are_maps n ids st). Qed.
  (** No reference dangles silently: its type is stored, or reported as unknown. *)
  Theorem schema_refs_answered n ids st id s r : is_order order -> sorts sorted -> all n ids start = NDone st ->
    known st id = Some s -> preset id = None -> ref_in r s -> exists id', refers (fst id) r id' /\ answered st id'.
  Proof.
    intros Ho Hs H K P R. destruct (all_inv order sorted allow_dangerous ignore_unexported imports pkg_markers types presets presets_are_maps n ids ids _ _ (fun x h => h) (inv_start _ _ _ _ _ _ _ _ _) H) as (I & _ & _).
    destruct (i_settled _ _ _ _ _ _ _ _ _ _ _ I _ _ K) as [[]|[Q|(_ & ti & reqs & errs & T & G & A & _)]]; [congruence|].
    pose proof (info_sound order sorted Ho Hs (imports (fst id)) allow_dangerous ignore_unexported (pkg_markers (fst id)) ti) as S. unfold generated in G. rewrite G in S.
    destruct (S r R) as (p & m & -> & Hin). exists (target id (p, m)). split; [|apply (A _ Hin)]. exists p. split; [reflexivity|]. unfold target. cbn [fst snd].
    destruct (String.eqb p "") eqn:E; [apply String.eqb_eq in E; left; auto|apply String.eqb_neq in E; right; auto].
  Qed.
  (** The order and number of requests do not matter. *)
  Theorem schema_requests_order n n' ids ids' : all n ids start <> NFuel -> all n' ids' start <> NFuel -> (forall id, In id ids <-> In id ids') ->
    match all n ids start, all n' ids' start with
    | NDone st, NDone st' => (forall id, known st id = known st' id) /\ (forall x, In x (ps_errs st) <-> In x (ps_errs st'))
    | NPanic, NPanic => True
    | _, _ => False
    end.
  Proof.
    intros F F' E.
    assert (N : forall id, needed ids id <-> needed ids' id) by (intros id; split; apply needed_incl; intros x; apply E).
    assert (Pn : all n ids start = NPanic <-> all n' ids' start = NPanic).
    { rewrite (schema_requests_panic n ids F), (schema_requests_panic n' ids' F'). split; intros (id & ti & H & R); exists id, ti; (split; [apply N, H|exact R]). }
    destruct (all n ids start) as [st| |] eqn:A, (all n' ids' start) as [st'| |] eqn:A'; try exact I; try congruence; try (destruct Pn as [P1 P2]; (specialize (P1 eq_refl) || specialize (P2 eq_refl)); discriminate).
    split.
    - assert (K : forall id s, known st id = Some s <-> known st' id = Some s).
      { intros id s. rewrite (schema_requests_result _ _ _ A), (schema_requests_result _ _ _ A'). rewrite (N id).
        split; (intros [H [X|[P (id' & X & Y)]]]; (split; [exact H|]); [left; exact X|right; split; [exact P|]; exists id'; split; [apply N, X|exact Y]]). }
      intros id. destruct (known st id) as [s|] eqn:X; [symmetry; apply K, X|]. destruct (known st' id) as [s|] eqn:Y; [apply K in Y; congruence|reflexivity].
    - intros [p x]. rewrite (schema_requests_errors _ _ _ A), (schema_requests_errors _ _ _ A'). split; intros (id & H & R); exists id; (split; [apply N, H|exact R]).
  Qed.
End Requests.
Print Assumptions schema_requests_end.
Print Assumptions schema_requests_panic.
Print Assumptions schema_requests_result.
Print Assumptions schema_requests_errors.
Print Assumptions schema_refs_answered.
Print Assumptions schema_requests_order.

(** ** Two types that refer to each other, an override, and a type that does not exist *)
Definition field (name tag : string) (t : texpr) : finfo := mkFInfo name true "" (Some tag) [] t.
Definition plain_struct (name : string) (fs : list finfo) : tinfo := mkTInfo name "" [] fs EStruct false false.
Definition case_types (id : ident) : option tinfo :=
  if ident_eqb id ("a", "Node") then Some (plain_struct "Node" [field "Next" "next,omitempty" (EStar (EIdent "Edge" (TNamed OHere "Edge" TOther))); field "At" "at" (ESel (TNamed (OPkg "meta") "Time" TOther))])
  else if ident_eqb id ("a", "Edge") then Some (plain_struct "Edge" [field "To" "to" (EArray false (EIdent "Node" (TNamed OHere "Node" TOther))); field "X" "x" (ESel (TNamed (OPkg "b") "Gone" TOther))])
  else None.
Definition case_presets (p : string) : list (string * schema) := if String.eqb p "meta" then [("Time", typed "string" "date-time")] else [].
Definition case_need (ids : list ident) : nres :=
  need_all (fun l => l) (sort_by (fun a b => Nat.ltb (priority (snd a)) (priority (snd b)))) false false (fun _ _ => true) (fun _ => []) case_types case_presets 3 ids (mkPS [] [] []).
Example case_requests :
  (exists st, case_need [("a", "Node")] = NDone st /\ mkeys (ps_schemata st) = [("a", "Node"); ("a", "Edge"); ("meta", "Time")] /\ ps_errs st = [("b", PUnknown "Gone")] /\
     mget ident_eqb (ps_schemata st) ("a", "Edge") <> Some schema0) /\
  (forall id, case_types id <> None -> In id [("a", "Node"); ("a", "Edge")]) /\ (forall p, NoDup (map fst (case_presets p))).
Proof.
  split; [|split].
  - eexists. split; [vm_compute; reflexivity|]. split; [reflexivity|]. split; [reflexivity|]. discriminate.
  - intros id. unfold case_types. destruct (ident_eqb id ("a", "Node")) eqn:E1; [apply FlattenProofs6.ident_eqb_eq in E1; intros _; left; auto|].
    destruct (ident_eqb id ("a", "Edge")) eqn:E2; [apply FlattenProofs6.ident_eqb_eq in E2; intros _; right; left; auto|]. intros H. exfalso. apply H. reflexivity.
  - intros p. unfold case_presets. destruct (String.eqb p "meta"); repeat constructor. intros [].
Qed.
