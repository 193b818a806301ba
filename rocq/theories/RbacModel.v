(** * Model of pkg/rbac/parser.go (the [rbac] generator). Definitions only. *)

From Coq Require Import List String Bool Permutation.
From Verif Require Import GoLib.
Import ListNotations.
Open Scope string_scope.
Open Scope list_scope.

(** pkg/rbac/parser.go:45-63, [Rule]: the value of one +kubebuilder:rbac marker. *)
Record rule := mkRule {
  r_groups : list string;
  r_resources : list string;
  r_names : list string;      (* ResourceNames *)
  r_verbs : list string;
  r_urls : list string;
  r_ns : string               (* Namespace *)
}.

(** pkg/rbac/parser.go:66-71, [ruleKey]; equality of keys is equality of the four strings. *)
Record rkey := mkKey { k_groups : string; k_resources : string; k_names : string; k_urls : string }.

(** Equality of the keys of ruleMap, pkg/rbac/parser.go:226 *)
Definition rkey_eqb (a b : rkey) : bool :=
  String.eqb (k_groups a) (k_groups b) && String.eqb (k_resources a) (k_resources b)
  && String.eqb (k_names a) (k_names b) && String.eqb (k_urls a) (k_urls b).

(** fmt.Sprintf("%s + %s + %s + %s", ...) used at pkg/rbac/parser.go:74, 98, 104, 110. *)
Definition fmt4 (a b c d : string) : string :=
  (a ++ " + " ++ b ++ " + " ++ c ++ " + " ++ d)%string.

(** pkg/rbac/parser.go:73-75, [ruleKey.String]. *)
Definition key_string (k : rkey) : string := fmt4 (k_groups k) (k_resources k) (k_names k) (k_urls k).

(** pkg/rbac/parser.go:130-144, [removeDupAndSort]. The set is a Go map; the order in which its
    keys come out does not matter because they are sorted. *)
Definition remove_dup_and_sort (l : list string) : list string := sort_strings (dedup l).

(** pkg/rbac/parser.go:120-126, [Rule.normalize]. *)
Definition normalize (r : rule) : rule :=
  mkRule (remove_dup_and_sort (r_groups r)) (remove_dup_and_sort (r_resources r))
         (remove_dup_and_sort (r_names r)) (remove_dup_and_sort (r_verbs r))
         (remove_dup_and_sort (r_urls r)) (r_ns r).

(** pkg/rbac/parser.go:85-93, the key computed by [Rule.key] from an already normalised rule;
    [Rule.key] itself normalises the receiver first, see [keyed]. *)
Definition key_of (r : rule) : rkey :=
  mkKey (join "&" (r_groups r)) (join "&" (r_resources r)) (join "&" (r_names r)) (join "&" (r_urls r)).

(** pkg/rbac/parser.go:85-93, [Rule.key] as a state change: (normalised rule, its key). *)
Definition keyed (r : rule) : rule * rkey := (normalize r, key_of (normalize r)).

(** pkg/rbac/parser.go:95-99 (after the normalisation done by the call to key()). *)
Definition key_no_resources (r : rule) : string :=
  let k := key_of r in fmt4 (k_groups k) (k_names k) (k_urls k) (join "&" (r_verbs r)).
(** pkg/rbac/parser.go:101-105. *)
Definition key_no_groups (r : rule) : string :=
  let k := key_of r in fmt4 (k_resources k) (k_names k) (k_urls k) (join "&" (r_verbs r)).
(** pkg/rbac/parser.go:107-111. *)
Definition key_no_urls (r : rule) : string :=
  let k := key_of r in fmt4 (k_groups k) (k_resources k) (k_names k) (join "&" (r_verbs r)).

(** pkg/rbac/parser.go:115-117, [Rule.addVerbs]. *)
Definition add_verbs (r : rule) (vs : list string) : rule :=
  mkRule (r_groups r) (r_resources r) (r_names r) (remove_dup_and_sort (r_verbs r ++ vs)) (r_urls r) (r_ns r).

(** pkg/rbac/parser.go:230-234: "core" is the empty group. The code writes into the slice, which the
    rules split from one marker share; the write is idempotent, so doing it per rule is the same. *)
Definition fix_core (r : rule) : rule :=
  mkRule (map (fun g => if String.eqb g "core" then "" else g) (r_groups r))
         (r_resources r) (r_names r) (r_verbs r) (r_urls r) (r_ns r).

(** pkg/rbac/parser.go:193-221: one marker becomes one rule per resource, or one rule without
    resources. *)
Definition split_resources (r : rule) : list rule :=
  match r_resources r with
  | [] => [mkRule (r_groups r) [] (r_names r) (r_verbs r) (r_urls r) (r_ns r)]
  | rs => map (fun x => mkRule (r_groups r) [x] (r_names r) (r_verbs r) (r_urls r) (r_ns r)) rs
  end.

(** ruleMap, pkg/rbac/parser.go:226 *)
Definition rmap := list (rkey * rule).

(** pkg/rbac/parser.go:226-242: rules with the same key are merged into the first one.
    The rule stored is the pointer that [key()] normalised. *)
Definition merge_same_key (m : rmap) (r : rule) : rmap :=
  let (r', k) := keyed (fix_core r) in
  match mget rkey_eqb m k with
  | None => mset rkey_eqb m k r'
  | Some r0 => mset rkey_eqb m k (add_verbs r0 (r_verbs r'))
  end.

(** Orders in which the runtime iterates the maps of one call of NormalizeRules
    (pkg/rbac/parser.go:247, 254, 267, 274, 286, 293, 304); the last one is also the unspecified
    order in which [sort.Sort] leaves keys with equal strings. The loop at 310 does not depend on the order. *)
Record orders := mkOrders {
  o_res_map : rmap -> rmap;  o_res_groups : list (string * list rule) -> list (string * list rule);
  o_grp_map : rmap -> rmap;  o_grp_groups : list (string * list rule) -> list (string * list rule);
  o_url_map : rmap -> rmap;  o_url_groups : list (string * list rule) -> list (string * list rule);
  o_keys : list rkey -> list rkey
}.

(** The ranges over maps, pkg/rbac/parser.go:247-304 *)
Definition valid_orders (o : orders) : Prop :=
  is_order (o_res_map o) /\ is_order (o_res_groups o) /\ is_order (o_grp_map o) /\
  is_order (o_grp_groups o) /\ is_order (o_url_map o) /\ is_order (o_url_groups o) /\ is_order (o_keys o).

(** The three "deduplicate" passes (pkg/rbac/parser.go:244-262, 264-281, 283-300) differ only in the
    key they group by and in the field they concatenate. *)
Section Stage.
  Variable keyf : rule -> string.                 (* the keyWith... method *)
  Variable absorb : rule -> list rule -> rule.    (* append the field of rules[1:] to rules[0] *)
  Variable omap : rmap -> rmap.
  Variable ogrp : list (string * list rule) -> list (string * list rule).

  (** "1. create map based on key without ...": the keyWith... methods normalise the rule. *)
  Definition stage_group (m : rmap) : list (string * list rule) :=
    fold_left (fun acc kr => let r := normalize (snd kr) in mapp String.eqb acc (keyf r) r) (omap m) [].

  (** "2. merge to ruleMap": note the plain assignment ruleMap[key] = rule. pkg/rbac/parser.go:252-262. *)
  Definition stage_merge (gs : list (string * list rule)) : rmap :=
    fold_left (fun acc g =>
      match snd g with
      | [] => acc                                   (* rules[0] would panic; groups are never empty *)
      | r0 :: rs => let (r', k) := keyed (absorb r0 rs) in mset rkey_eqb acc k r'
      end) (ogrp gs) [].

  (** pkg/rbac/parser.go:244-262 *)
  Definition stage (m : rmap) : rmap := stage_merge (stage_group m).
End Stage.

(** pkg/rbac/parser.go:255-258. *)
Definition absorb_resources (r0 : rule) (rs : list rule) : rule :=
  mkRule (r_groups r0) (r_resources r0 ++ flat_map r_resources rs) (r_names r0) (r_verbs r0) (r_urls r0) (r_ns r0).
(** pkg/rbac/parser.go:275-278. *)
Definition absorb_groups (r0 : rule) (rs : list rule) : rule :=
  mkRule (r_groups r0 ++ flat_map r_groups rs) (r_resources r0) (r_names r0) (r_verbs r0) (r_urls r0) (r_ns r0).
(** pkg/rbac/parser.go:294-297. *)
Definition absorb_urls (r0 : rule) (rs : list rule) : rule :=
  mkRule (r_groups r0) (r_resources r0) (r_names r0) (r_verbs r0) (r_urls r0 ++ flat_map r_urls rs) (r_ns r0).

(** rbacv1.PolicyRule and pkg/rbac/parser.go:147-155, [ToRule]. *)
Record policy_rule := mkPolicy {
  p_groups : list string; p_verbs : list string; p_resources : list string;
  p_names : list string; p_urls : list string }.
(** pkg/rbac/parser.go:147-155 *)
Definition to_rule (r : rule) : policy_rule :=
  mkPolicy (r_groups r) (r_verbs r) (r_resources r) (r_names r) (r_urls r).

(** pkg/rbac/parser.go:310-317. *)
Definition star_verbs (r : rule) : rule :=
  if mem_str "*" (r_verbs r)
  then mkRule (r_groups r) (r_resources r) (r_names r) ["*"] (r_urls r) (r_ns r)
  else r.

(** pkg/rbac/parser.go:225-323, [NormalizeRules]. *)
Definition normalize_rules (o : orders) (rules : list rule) : list policy_rule :=
  let m1 := fold_left merge_same_key rules [] in
  let m2 := stage key_no_resources absorb_resources (o_res_map o) (o_res_groups o) m1 in
  let m3 := stage key_no_groups absorb_groups (o_grp_map o) (o_grp_groups o) m2 in
  let m4 := stage key_no_urls absorb_urls (o_url_map o) (o_url_groups o) m3 in
  let keys := sort_by (fun a b => str_ltb (key_string a) (key_string b)) (o_keys o (mkeys m4)) in
  flat_map (fun k => match mget rkey_eqb m4 k with
                     | Some r => [to_rule (star_verbs r)]
                     | None => []              (* unreachable: the keys are the map's keys *)
                     end) keys.

(** The objects written: rbacv1.ClusterRole or rbacv1.Role (pkg/rbac/parser.go:341-362). *)
Inductive obj :=
| ClusterRole (name : string) (rules : list policy_rule)
| Role (name ns : string) (rules : list policy_rule).

(** pkg/rbac/parser.go:185-222: rules of all roots by namespace. [roots] holds, per root package, the
    values of its rbac markers in collection order. *)
Definition rules_by_ns (roots : list (list rule)) : list (string * list rule) :=
  fold_left (fun acc r => mapp String.eqb acc (r_ns r) r)
            (flat_map split_resources (List.concat roots)) [].

(** pkg/rbac/parser.go:184-367, [GenerateRoles]. [nso] is the iteration order of rulesByNSResource
    (326-330, irrelevant because sorted); [o ns] the orders used for that namespace.
    Marker collection errors (187-190) only remove markers from [roots]. *)
Definition generate_roles (nso : list string -> list string) (o : string -> orders)
           (roots : list (list rule)) (role_name : string) : list obj :=
  let m := rules_by_ns roots in
  flat_map (fun ns =>
    let rules := match mget String.eqb m ns with Some l => l | None => [] end in
    match normalize_rules (o ns) rules with
    | [] => []
    | prs => if String.eqb ns "" then [ClusterRole role_name prs] else [Role role_name ns prs]
    end) (sort_strings (nso (mkeys m))).
