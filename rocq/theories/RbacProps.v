(** * rbac: the properties C01-C04. *)

From Coq Require Import List String Ascii Bool Permutation Sorting.Sorted.
From Verif Require Import GoLib GoLibFacts RbacModel RbacSpec RbacProofs RbacProofs2 RbacProofs3.
Import ListNotations.
Open Scope string_scope.
Open Scope list_scope.

(** Concrete data used by the examples and the refutations. *)
Definition id_orders : orders :=
  mkOrders (fun x => x) (fun x => x) (fun x => x) (fun x => x) (fun x => x) (fun x => x) (fun x => x).
Definition rev_orders : orders :=
  mkOrders (fun x => x) (fun x => x) (fun x => x) (@rev _) (fun x => x) (fun x => x) (fun x => x).

Lemma id_is_order (A : Type) : is_order (fun l : list A => l).
Proof. intros l. reflexivity. Qed.
Lemma rev_is_order (A : Type) : is_order (@rev A).
Proof. intros l. symmetry. apply Permutation_rev. Qed.
Lemma id_orders_valid : valid_orders id_orders.
Proof. repeat split; apply id_is_order. Qed.
Lemma rev_orders_valid : valid_orders rev_orders.
Proof. repeat split; try apply id_is_order; apply rev_is_order. Qed.

Definition res_marker (groups resources verbs : list string) (ns : string) : rule :=
  mkRule groups resources [] verbs [] ns.

Definition sample : list (list rule) :=
  [ [ res_marker ["core"; "apps"] ["pods"; "pods/log"] ["get"; "list"] "";
      res_marker ["core"; "apps"] ["pods"] ["*"] "" ];
    [ res_marker ["batch"] ["jobs"] ["get"] "zoo"; mkRule [] [] [] ["get"] ["/healthz"; "/metrics"] "";
      mkRule ["batch"] ["jobs"] ["a"; "b"] ["delete"] [] "zoo" ] ].

(** C01: no request is granted by the generated roles that the markers of the same namespace do not grant. *)
Theorem rbac_no_escalation :
  forall nso o roots role_name,
    is_order nso -> (forall ns, valid_orders (o ns)) ->
    (forall m, In m (List.concat roots) -> sane m) ->
    forall ns q, objs_allow (generate_roles nso o roots role_name) ns q -> markers_allow roots ns q.
Proof. exact generate_roles_sound. Qed.
Print Assumptions rbac_no_escalation.

Ltac solve_one :=
  first [ reflexivity | discriminate | congruence
        | solve [repeat constructor]
        | solve [intros H; simpl in H; intuition discriminate]
        | solve [left; repeat split; discriminate]
        | solve [right; repeat split; discriminate] ].
Ltac solve_sane :=
  unfold sane, marker_ok, clean_rule, no_empty, has_group, k8s_valid; simpl;
  repeat match goal with |- _ /\ _ => split end; solve_one.

Example sample_sane : forall m, In m (List.concat sample) -> sane m.
Proof. simpl. intros m H. repeat destruct H as [<-|H]; [..|contradiction]; solve_sane. Qed.
Example sample_grants :
  objs_allow (generate_roles (fun x => x) (fun _ => id_orders) sample "manager") "" (ResourceRequest "apps" "pods" "log" "x" "list").
Proof.
  unfold objs_allow. do 2 eexists. split; [vm_compute; left; reflexivity|]. split; [reflexivity|].
  split; [simpl; right; right; left; reflexivity|]. simpl. repeat split.
  - exists "list". split; [right; left; reflexivity|right; reflexivity].
  - exists "apps". split; [right; left; reflexivity|right; reflexivity].
  - exists "pods/log". split; [left; reflexivity|right; left; reflexivity].
  - left; reflexivity.
Qed.

(** Without the hypothesis that no component contains '&', the claim is false: two different resourceNames
    lists share a key and the verbs of one are granted on the names of the other. *)
Theorem rbac_no_escalation_unconditional_refuted :
  exists roots ns q,
    (forall m, In m (List.concat roots) -> k8s_valid m /\ no_empty m) /\
    objs_allow (generate_roles (fun x => x) (fun _ => id_orders) roots "r") ns q /\
    ~ markers_allow roots ns q.
Proof.
  exists [[mkRule [""] ["secrets"] ["a&b"] ["get"] [] ""; mkRule [""] ["secrets"] ["a"; "b"] ["delete"] [] ""]],
    "", (ResourceRequest "" "secrets" "" "a&b" "delete").
  split; [|split].
  - intros m H. simpl in H. destruct H as [<-|[<-|[]]]; solve_sane.
  - unfold objs_allow. do 2 eexists. split; [vm_compute; left; reflexivity|]. split; [reflexivity|].
    split; [simpl; left; reflexivity|]. simpl. repeat split.
    + exists "delete". split; [left; reflexivity|right; reflexivity].
    + exists "". split; [left; reflexivity|right; reflexivity].
    + exists "secrets". split; [left; reflexivity|right; left; reflexivity].
    + right. left. reflexivity.
  - intros (m & H & _ & A). simpl in H. destruct H as [<-|[<-|[]]]; simpl in A.
    + destruct A as ((x & [<-|[]] & [E|E]) & _); discriminate.
    + destruct A as (_ & _ & _ & [E|[E|[E|[]]]]); discriminate.
Qed.
Print Assumptions rbac_no_escalation_unconditional_refuted.

(** C02 (with C01): for valid, compatible markers the generated roles grant exactly what the markers grant. *)
Theorem rbac_exact :
  forall nso o roots role_name,
    is_order nso -> (forall ns, valid_orders (o ns)) ->
    (forall m, In m (List.concat roots) -> marker_ok m) ->
    (forall a b, In a (List.concat roots) -> In b (List.concat roots) -> compatible a b) ->
    forall ns q, objs_allow (generate_roles nso o roots role_name) ns q <-> markers_allow roots ns q.
Proof. exact generate_roles_exact. Qed.
Print Assumptions rbac_exact.

Example sample_ok : forall m, In m (List.concat sample) -> marker_ok m.
Proof. simpl. intros m H. repeat destruct H as [<-|H]; [..|contradiction]; solve_sane. Qed.

Lemma same_set_same l : same_set l l. Proof. intros x; reflexivity. Qed.
Example sample_compatible : forall a b, In a (List.concat sample) -> In b (List.concat sample) -> compatible a b.
Proof.
  simpl. intros a b Ha Hb.
  repeat destruct Ha as [<-|Ha]; [..|contradiction];
  (repeat destruct Hb as [<-|Hb]; [..|contradiction]); unfold compatible; simpl; intros E; try discriminate E;
  (split; [intros Hn Hr Hg; try apply same_set_same|intros Hu; try apply same_set_same]);
  repeat match goal with H : overlap _ _ |- _ => destruct H as (?x & ?H1 & ?H2) end; simpl in *;
  intuition (subst; try discriminate; try contradiction).
Qed.

(** Without compatibility, completeness is false even for valid markers: the verbs of one marker are lost. *)
Definition clash : list (list rule) :=
  [[res_marker ["a"] ["x"] ["get"] ""; res_marker ["b"] ["x"] ["get"] ""; res_marker ["a"; "b"] ["x"] ["list"] ""]].

Theorem rbac_completeness_unconditional_refuted :
  exists roots ns q,
    (forall m, In m (List.concat roots) -> marker_ok m) /\
    markers_allow roots ns q /\
    ~ objs_allow (generate_roles (fun x => x) (fun _ => rev_orders) roots "r") ns q.
Proof.
  exists clash, "", (ResourceRequest "a" "x" "" "o" "list"). split; [|split].
  - simpl. intros m H. repeat destruct H as [<-|H]; [..|contradiction]; solve_sane.
  - exists (res_marker ["a"; "b"] ["x"] ["list"] ""). split; [simpl; tauto|]. split; [reflexivity|]. simpl. repeat split.
    + exists "list". split; [left; reflexivity|right; reflexivity].
    + exists "a". split; [left; reflexivity|right; reflexivity].
    + exists "x". split; [left; reflexivity|right; left; reflexivity].
    + left; reflexivity.
  - unfold objs_allow. vm_compute. intros (ob & p & [<-|[]] & _ & [<-|[]] & (x & [<-|[]] & [E|E]) & _); discriminate.
Qed.
Print Assumptions rbac_completeness_unconditional_refuted.

(** C03: for valid, compatible markers the objects do not depend on any map iteration order, nor on the order
    in which the markers were collected. *)
Theorem rbac_deterministic :
  forall nso o nso' o' roots roots' role_name,
    is_order nso -> is_order nso' -> (forall ns, valid_orders (o ns)) -> (forall ns, valid_orders (o' ns)) ->
    (forall m, In m (List.concat roots) -> marker_ok m) ->
    (forall a b, In a (List.concat roots) -> In b (List.concat roots) -> compatible a b) ->
    Permutation (List.concat roots) (List.concat roots') ->
    generate_roles nso o roots role_name = generate_roles nso' o' roots' role_name.
Proof. exact generate_roles_deterministic. Qed.
Print Assumptions rbac_deterministic.

Example rbac_deterministic_case :
  generate_roles (fun x => x) (fun _ => id_orders) sample "m" =
  generate_roles (@rev _) (fun _ => rev_orders) (rev (map (@rev _) sample)) "m".
Proof.
  apply rbac_deterministic; try apply id_is_order; try apply rev_is_order;
    try (intros; apply id_orders_valid); try (intros; apply rev_orders_valid).
  - exact sample_ok.
  - exact sample_compatible.
  - change (List.concat (rev (map (@rev _) sample))) with (rev (List.concat sample)). apply Permutation_rev.
Qed.

Theorem rbac_determinism_unconditional_refuted :
  exists roots,
    (forall m, In m (List.concat roots) -> marker_ok m) /\
    generate_roles (fun x => x) (fun _ => id_orders) roots "r" <>
    generate_roles (fun x => x) (fun _ => rev_orders) roots "r".
Proof.
  exists clash. split.
  - simpl. intros m H. repeat destruct H as [<-|H]; [..|contradiction]; solve_sane.
  - vm_compute. discriminate.
Qed.
Print Assumptions rbac_determinism_unconditional_refuted.

(** C04: one object per namespace that has a marker, in strictly increasing namespace order; ClusterRole exactly
    for the empty namespace; every rule list non-empty, sorted and normalised. No hypothesis on the markers. *)
Theorem rbac_one_object_per_namespace :
  forall nso o roots role_name,
    is_order nso -> (forall ns, valid_orders (o ns)) ->
    StronglySorted (fun a b => str_ltb a b = true) (map obj_ns (generate_roles nso o roots role_name)) /\
    forall ns, (exists ob, In ob (generate_roles nso o roots role_name) /\ obj_ns ob = ns) <->
               exists m, In m (List.concat roots) /\ r_ns m = ns.
Proof.
  exact (fun nso o roots rn Hn Ho => conj (generate_roles_sorted nso o roots rn Hn Ho)
          (fun ns => generate_roles_exists nso o roots rn ns Hn Ho)).
Qed.
Print Assumptions rbac_one_object_per_namespace.

Theorem rbac_object_shape :
  forall nso o roots role_name ob,
    is_order nso -> (forall ns, valid_orders (o ns)) -> In ob (generate_roles nso o roots role_name) ->
    obj_name ob = role_name /\ obj_rules ob <> [] /\
    (match ob with ClusterRole _ _ => True | Role _ ns _ => ns <> "" end) /\
    StronglySorted (fun a b => str_leb (policy_string a) (policy_string b) = true) (obj_rules ob) /\
    forall p, In p (obj_rules ob) ->
      sorted_set (p_groups p) /\ sorted_set (p_resources p) /\ sorted_set (p_names p) /\ sorted_set (p_verbs p) /\
      sorted_set (p_urls p) /\ ~ In "core" (p_groups p) /\ (In "*" (p_verbs p) -> p_verbs p = ["*"]).
Proof. exact generate_roles_objects. Qed.
Print Assumptions rbac_object_shape.

Example sample_objects :
  map obj_ns (generate_roles (@rev _) (fun _ => id_orders) sample "m") = [""; "zoo"].
Proof. vm_compute. reflexivity. Qed.
