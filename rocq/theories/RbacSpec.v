(** * Specification side of the rbac properties: what Kubernetes RBAC rules authorise.

    Written from the Kubernetes API documentation of rbac.authorization.k8s.io/v1 (PolicyRule), without
    using the model's own helpers. *)

From Coq Require Import List String Ascii Bool Sorting.Sorted.
From Verif Require Import GoLib RbacModel.
Import ListNotations.
Open Scope string_scope.

(** A request as the authoriser sees it. [rq_name] is "" when the request names no object. *)
Inductive request :=
| ResourceRequest (group resource subresource name verb : string)
| URLRequest (path verb : string).

(** "*" matches every verb / group. *)
Definition star_matches (pattern x : string) : Prop := pattern = "*" \/ pattern = x.

(** A resource entry matches the resource (with its subresource, "pods/log"), "*" everything, and
    "*/sub" every resource's subresource. *)
Definition resource_matches (pattern resource sub : string) : Prop :=
  pattern = "*"
  \/ pattern = (if String.eqb sub "" then resource else resource ++ "/" ++ sub)%string
  \/ (sub <> "" /\ pattern = ("*/" ++ sub)%string).

(** A non-resource URL entry matches itself, "*" everything, and "/prefix/*" every path below. *)
Definition url_matches (pattern path : string) : Prop :=
  pattern = "*" \/ pattern = path \/
  (exists pre, pattern = (pre ++ "*")%string /\ has_prefix pre path = true).

(** One PolicyRule authorises a request. An empty resourceNames list means every name. *)
Definition rule_allows (groups verbs resources names urls : list string) (q : request) : Prop :=
  match q with
  | ResourceRequest g r sub n v =>
      (exists x, In x verbs /\ star_matches x v) /\
      (exists x, In x groups /\ star_matches x g) /\
      (exists x, In x resources /\ resource_matches x r sub) /\
      (names = [] \/ In n names)
  | URLRequest path v =>
      (exists x, In x verbs /\ star_matches x v) /\
      (exists x, In x urls /\ url_matches x path)
  end.

(** What a marker asks for: the same reading, where the group "core" stands for "". *)
Definition core_name (g : string) : string := if String.eqb g "core" then "" else g.
Definition marker_allows (r : rule) (q : request) : Prop :=
  rule_allows (map core_name (r_groups r)) (r_verbs r) (r_resources r) (r_names r) (r_urls r) q.

Definition policy_allows (p : policy_rule) (q : request) : Prop :=
  rule_allows (p_groups p) (p_verbs p) (p_resources p) (p_names p) (p_urls p) q.

Definition obj_rules (o : obj) : list policy_rule :=
  match o with ClusterRole _ rs => rs | Role _ _ rs => rs end.
(** The namespace an object speaks about; a ClusterRole is the empty namespace of the markers. *)
Definition obj_ns (o : obj) : string := match o with ClusterRole _ _ => "" | Role _ ns _ => ns end.
Definition obj_name (o : obj) : string := match o with ClusterRole n _ => n | Role n _ _ => n end.

Definition objs_allow (objs : list obj) (ns : string) (q : request) : Prop :=
  exists ob p, In ob objs /\ obj_ns ob = ns /\ In p (obj_rules ob) /\ policy_allows p q.

(** The markers of one namespace allow a request. *)
Definition markers_allow (roots : list (list rule)) (ns : string) (q : request) : Prop :=
  exists r, In r (List.concat roots) /\ r_ns r = ns /\ marker_allows r q.

(** ** Hypotheses on markers *)

(** No component contains '&' or a space (the characters the implementation uses to glue keys). *)
Definition clean (s : string) : Prop := has_char "&" s = false /\ has_char " " s = false.
Definition clean_rule (r : rule) : Prop :=
  Forall clean (r_groups r) /\ Forall clean (r_resources r) /\ Forall clean (r_names r) /\
  Forall clean (r_verbs r) /\ Forall clean (r_urls r).
(** No resource, resource name, verb or URL is the empty string (the empty group is the core group). *)
Definition no_empty (r : rule) : Prop :=
  ~ In "" (r_resources r) /\ ~ In "" (r_names r) /\ ~ In "" (r_verbs r) /\ ~ In "" (r_urls r).
(** Resource rules name at least one API group, as Kubernetes requires. *)
Definition has_group (r : rule) : Prop := r_resources r <> [] -> r_groups r <> [].
Definition sane (r : rule) : Prop := clean_rule r /\ no_empty r /\ has_group r.

(** The API server's own validity check (ValidatePolicyRule): either non-resource URLs and nothing about
    resources, or resources with groups and no URLs. *)
Definition k8s_valid (r : rule) : Prop :=
  (r_urls r <> [] /\ r_groups r = [] /\ r_resources r = [] /\ r_names r = []) \/
  (r_urls r = [] /\ r_groups r <> [] /\ r_resources r <> []).

Definition same_set (a b : list string) : Prop := forall x, In x a <-> In x b.
Definition overlap (a b : list string) : Prop := exists x, In x a /\ In x b.

(** Two markers do not clash: same names and a common resource and group force equal group sets; a common
    URL forces equal URL sets. *)
Definition compatible (a b : rule) : Prop :=
  r_ns a = r_ns b ->
  (same_set (r_names a) (r_names b) -> overlap (r_resources a) (r_resources b) ->
   overlap (map core_name (r_groups a)) (map core_name (r_groups b)) ->
   same_set (map core_name (r_groups a)) (map core_name (r_groups b))) /\
  (overlap (r_urls a) (r_urls b) -> same_set (r_urls a) (r_urls b)).

(** A marker the completeness theorem speaks about. *)
Definition marker_ok (m : rule) : Prop := clean_rule m /\ no_empty m /\ k8s_valid m.

(** Strictly increasing, hence sorted and without repetition. *)
Definition sorted_set (l : list string) : Prop := StronglySorted (fun a b => str_ltb a b = true) l.

(** The text rules are ordered by in the output. *)
Definition policy_string (p : policy_rule) : string :=
  (join "&" (p_groups p) ++ " + " ++ join "&" (p_resources p) ++ " + " ++ join "&" (p_names p) ++ " + " ++ join "&" (p_urls p))%string.
