(** * C62: type-scaffold *)
From Coq Require Import List String Ascii Bool.
From Verif Require Import GoLib GoLibFacts ScaffoldModel ScaffoldSpec ScaffoldProofs.
Import ListNotations.
Open Scope string_scope.
Open Scope list_scope.

(** The template parses, whatever the options; and for a kind that is an identifier and a resource on one line, what is written declares
    the four types and nothing else. The help text is free: whatever is in it ends up in comments. *)
Theorem scaffold_declares o :
  identifier (sr_kind (o_resource o)) = true -> has_char nl (sr_resource (o_resource o)) = false ->
  exists out, scaffold o = Some out
    /\ declarations out = Some (scaffolded (sr_kind (o_resource o)) (sr_resource (o_resource o)) (o_help o) (sr_namespaced (o_resource o)) (o_clients o)).
Proof.
  intros Hk Hr. exists (join (String nl "") (text_lines (sr_kind (o_resource o)) (sr_resource (o_resource o)) (o_help o) (sr_namespaced (o_resource o)) (o_clients o))).
  split; [apply written|]. apply declares; [exact Hk|exact Hr|apply written].
Qed.
Print Assumptions scaffold_declares.

(** What the help text says is never more than comments: taking those away, the fields do not depend on it. *)
Corollary scaffold_help_inert o help out out' :
  identifier (sr_kind (o_resource o)) = true -> has_char nl (sr_resource (o_resource o)) = false ->
  scaffold o = Some out -> scaffold (mkOptions (o_resource o) help (o_clients o)) = Some out' ->
  exists ds ds', declarations out = Some ds /\ declarations out' = Some ds'
    /\ map d_name ds = map d_name ds' /\ map d_doc ds = map d_doc ds' /\ map d_above ds = map d_above ds'
    /\ map (fun d => filter (fun b => match b with BComment _ => false | _ => true end) (d_body d)) ds
       = map (fun d => filter (fun b => match b with BComment _ => false | _ => true end) (d_body d)) ds'.
Proof.
  intros Hk Hr H H'. eexists _, _. split; [exact (declares _ _ Hk Hr H)|]. split; [exact (declares (mkOptions (o_resource o) help (o_clients o)) _ Hk Hr H')|].
  cbn [o_resource o_help o_clients]. unfold scaffolded. cbn [map d_name d_doc d_above d_body filter]. repeat split.
  assert (E : forall h, filter (fun b => match b with BComment _ => false | _ => true end) (help_lines h) = []).
  { intros h. unfold help_lines. destruct (String.eqb h ""); [reflexivity|]. induction (split_char nl h) as [|x l IH]; [reflexivity|exact IH]. }
  rewrite !E. reflexivity.
Qed.
Print Assumptions scaffold_help_inert.

Section Command.
  Variables pluralize pascalize lower : string -> string.

  (** The command writes the types when the kind is given in CamelCase, and reports why not otherwise. *)
  Theorem scaffold_command kind resource namespaced :
    match command pluralize pascalize lower kind resource namespaced with
    | SInvalid VEmpty => kind = ""
    | SInvalid (VCase expected was) => kind <> "" /\ was = kind /\ expected = pascalize kind /\ expected <> was
    | SWritten out =>
        kind <> "" /\ pascalize kind = kind
        /\ (identifier kind = true -> has_char nl (match resource with Some (String c s) => String c s | _ => pluralize (lower kind) end) = false ->
            declarations out = Some (scaffolded kind (match resource with Some (String c s) => String c s | _ => pluralize (lower kind) end) "" true false))
    | SPanic => False
    end.
  Proof.
    unfold command, validate, validate_resource. cbn [o_resource sr_kind sr_resource sr_namespaced o_help o_clients].
    destruct (String.eqb_spec kind "") as [->|Hne]; [reflexivity|].
    set (r := if String.eqb (match resource with Some s => s | None => "" end) "" then _ else _).
    assert (Ek : sr_kind r = kind) by (unfold r; destruct (String.eqb _ ""); reflexivity).
    assert (Er : sr_resource r = match resource with Some (String c s) => String c s | _ => pluralize (lower kind) end).
    { unfold r. destruct resource as [[|c s]|]; reflexivity. }
    clearbody r. rewrite Ek. destruct (String.eqb_spec kind (pascalize kind)) as [Hp|Hp]; cbn [negb].
    - rewrite written. cbn [o_resource o_help o_clients]. split; [exact Hne|]. split; [symmetry; exact Hp|]. intros Hi Hn. rewrite Ek, Er.
      assert (D := declares (mkOptions r "" false) _ (eq_trans (f_equal identifier Ek) Hi) (eq_trans (f_equal (has_char nl) Er) Hn) (written _)).
      cbn [o_resource o_help o_clients] in D. rewrite Ek, Er in D. rewrite D. destruct (sr_namespaced r); reflexivity.
    - split; [exact Hne|]. split; [reflexivity|]. split; [reflexivity|]. intros E. apply Hp. symmetry. exact E.
  Qed.
End Command.
Print Assumptions scaffold_command.

(** ** What is not so *)
(** The help of --namespaced says what it is for; the command's output does not depend on it. *)
Theorem scaffold_namespaced_refuted pluralize pascalize lower kind resource a b :
  command pluralize pascalize lower kind resource a = command pluralize pascalize lower kind resource b.
Proof.
  unfold command, validate, validate_resource. cbn [o_resource sr_kind sr_resource sr_namespaced o_help o_clients].
  destruct (String.eqb kind ""); [reflexivity|].
  destruct (String.eqb (match resource with Some s => s | None => "" end) ""); cbn [sr_kind];
    (destruct (negb (String.eqb kind (pascalize kind))); [reflexivity|]); rewrite !written; reflexivity.
Qed.
Print Assumptions scaffold_namespaced_refuted.

(** A resource of more than one line is accepted and declares a type of its own. *)
Definition split_resource : string := "x API
type Evil struct {
}

// y".
Definition as_is (s : string) : string := s.
Theorem scaffold_resource_line_refuted :
  exists out ds, command as_is as_is as_is "Foo" (Some split_resource) None = SWritten out
    /\ declarations out = Some ds /\ map d_name ds = ["FooSpec"; "FooStatus"; "Evil"; "Foo"; "FooList"].
Proof. eexists _, _. split; [vm_compute; reflexivity|]. split; vm_compute; reflexivity. Qed.
Print Assumptions scaffold_resource_line_refuted.

(** ** A concrete case *)
(** A cluster-scoped kind, with clients and a help text that looks like code *)
Definition demo_options : options := mkOptions (mkSResource false "Foo" "foos") "}
type Evil struct {" true.
Example demo_options_meet : identifier (sr_kind (o_resource demo_options)) = true /\ has_char nl (sr_resource (o_resource demo_options)) = false.
Proof. split; reflexivity. Qed.
Example demo_options_declare :
  match scaffold demo_options with Some out => option_map (map d_name) (declarations out) | None => None end = Some ["FooSpec"; "FooStatus"; "Foo"; "FooList"].
Proof. vm_compute. reflexivity. Qed.
(** The command as it is used *)
Example demo_command :
  match command (fun s => s ++ "s")%string as_is (fun _ => "foo") "Foo" None None with
  | SWritten out => option_map (map d_doc) (declarations out) = Some
      [["FooSpec defines the desired state of Foo"];
       ["FooStatus defines the observed state of Foo."; "It should always be reconstructable from the state of the cluster and/or outside world."];
       ["Foo is the Schema for the foos API"; "+k8s:openapi-gen=true"]; ["FooList contains a list of Foo"]]
  | _ => False
  end.
Proof. vm_compute. reflexivity. Qed.
