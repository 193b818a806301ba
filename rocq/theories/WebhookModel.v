(** * Model of pkg/webhook/parser.go. Definitions only.

    Markers are the values the marker parser produced. A root package is the list of its webhookconfiguration markers and
    the list of its webhook markers. An error is None; nothing is written before the only loop that writes. Not modelled:
    the YAML text, header files, and failures of the output rule. *)

From Coq Require Import List String Bool ZArith.
From Verif Require Import GoLib.
Import ListNotations.
Open Scope string_scope.
Open Scope list_scope.

(** pkg/webhook/parser.go:61-70 *)
Record whconfig := mkWhConfig { wc_mutating : bool; wc_name : string }.
(** pkg/webhook/parser.go:78-162. int is Z (64 bit values), *int32 an option. *)
Record hook := mkHook {
  h_mutating : bool; h_failure : string; h_match : string; h_side : string; h_timeout : Z;
  h_groups : list string; h_resources : list string; h_verbs : list string; h_versions : list string;
  h_name : string; h_service : string; h_namespace : string; h_path : string; h_port : option Z;
  h_whversions : list string; h_reviews : list string; h_reinvocation : string; h_url : string }.

(** k8s.io/api/admissionregistration/v1: RuleWithOperations, WebhookClientConfig, and the fields of MutatingWebhook and
    ValidatingWebhook that are set (w_reinvocation is None in the latter). admissionregv1.RuleWithOperations,
    pkg/webhook/parser.go:268-291. *)
Record wrule := mkRule { r_groups : list string; r_versions : list string; r_resources : list string; r_operations : list string }.
(** admissionregv1.WebhookClientConfig, pkg/webhook/parser.go:324-362 *)
Inductive client := Service (name namespace path : string) (port : option Z) | Url (u : string).
(** pkg/webhook/parser.go:210-266 *)
Record webhook := mkWebhook {
  w_name : string; w_rules : list wrule; w_failure : string; w_match : option string; w_client : client;
  w_side : option string; w_timeout : option Z; w_reviews : list string; w_reinvocation : option string }.
(** Mutating- or ValidatingWebhookConfiguration. pkg/webhook/parser.go:184-208. *)
Record object := mkObject { o_kind : string; o_name : string; o_webhooks : list webhook }.

(** Go: int32(x). As at pkg/webhook/parser.go:324-389. *)
Definition int32 (z : Z) : Z := ((z + 2147483648) mod 4294967296 - 2147483648)%Z.

Section Webhook.
  (** strings.ToLower *)
  Variable lower : string -> string.
  (** The comparisons of lower case words, as at pkg/webhook/parser.go:166-181 *)
  Definition same_word (a b : string) : bool := String.eqb (lower a) (lower b).

  (** pkg/webhook/parser.go:166-181 *)
  Definition verb_to_api (v : string) : string :=
    if same_word v "CREATE" then "CREATE" else if same_word v "UPDATE" then "UPDATE" else if same_word v "DELETE" then "DELETE"
    else if same_word v "CONNECT" then "CONNECT" else if same_word v "*" then "*" else v.

  (** pkg/webhook/parser.go:268-290. The slice of groups is edited in place; the marker is not read again. *)
  Definition rules (c : hook) : list wrule :=
    [mkRule (map (fun g => if String.eqb g "core" then "" else g) (h_groups c)) (h_versions c) (h_resources c) (map verb_to_api (h_verbs c))].
  (** pkg/webhook/parser.go:294-305 *)
  Definition failure_policy (c : hook) : string :=
    if same_word (h_failure c) "Ignore" then "Ignore" else if same_word (h_failure c) "Fail" then "Fail" else h_failure c.
  (** pkg/webhook/parser.go:308-321; the outer option is the error *)
  Definition match_policy (c : hook) : option (option string) :=
    if same_word (h_match c) "Exact" then Some (Some "Exact") else if same_word (h_match c) "Equivalent" then Some (Some "Equivalent")
    else if String.eqb (lower (h_match c)) "" then Some None else None.
  (** pkg/webhook/parser.go:324-362 *)
  Definition client_config (c : hook) : option client :=
    let has_path := negb (String.eqb (h_path c) "") in
    let has_url := negb (String.eqb (h_url c) "") in
    if (has_path && has_url) || (negb has_path && negb has_url) then None
    else if has_path then
      Some (Service (if String.eqb (h_service c) "" then "webhook-service" else h_service c)
                    (if String.eqb (h_namespace c) "" then "system" else h_namespace c) (h_path c) (h_port c))
    else Some (Url (h_url c)).
  (** pkg/webhook/parser.go:365-380 *)
  Definition side_effects (c : hook) : option string :=
    if same_word (h_side c) "None" then Some "None" else if same_word (h_side c) "NoneOnDryRun" then Some "NoneOnDryRun"
    else if same_word (h_side c) "Some" then Some "Some" else None.
  (** pkg/webhook/parser.go:383-389 *)
  Definition timeout_seconds (c : hook) : option Z := if Z.eqb (h_timeout c) 0 then None else Some (int32 (h_timeout c)).
  (** pkg/webhook/parser.go:392-403 *)
  Definition reinvocation_policy (c : hook) : option string :=
    if same_word (h_reinvocation c) "Never" then Some "Never" else if same_word (h_reinvocation c) "IfNeeded" then Some "IfNeeded" else None.

  (** pkg/webhook/parser.go:210-236 and 239-264, ToMutatingWebhook and ToValidatingWebhook on a marker of the right kind. *)
  Definition to_webhook (c : hook) : option webhook :=
    match match_policy c with
    | None => None
    | Some mp =>
        match client_config c with
        | None => None
        | Some cc => Some (mkWebhook (h_name c) (rules c) (failure_policy c) mp cc (side_effects c) (timeout_seconds c) (h_reviews c)
                             (if h_mutating c then reinvocation_policy c else None))
        end
    end.

  (** pkg/webhook/parser.go:55-57 *)
  Definition supported : list string := ["v1"].
  (** pkg/webhook/parser.go:406-418; [ord] is the order of UnsortedList *)
  Definition webhook_versions (ord : list string -> list string) (c : hook) : option (list string) :=
    match h_whversions c with
    | [] => Some ["v1"]
    | vs => if forallb (fun v => mem_str v supported) vs then Some (ord (dedup vs)) else None
    end.

  (** pkg/webhook/parser.go:617-633 *)
  Definition side_ok (s : option string) : bool :=
    match s with None => false | Some x => negb (String.eqb x "Unknown" || String.eqb x "Some") end.
  (** pkg/webhook/parser.go:628-635 *)
  Definition timeout_ok (t : option Z) : bool := match t with None => true | Some z => negb (Z.ltb z 1 || Z.ltb 30 z) end.
  (** pkg/webhook/parser.go:535-551 and 572-588, the checks on one webhook *)
  Definition hook_ok (w : webhook) : bool := side_ok (w_side w) && timeout_ok (w_timeout w) && negb (match w_reviews w with [] => true | _ => false end).

  (** pkg/webhook/parser.go:457-483: the webhookconfiguration markers of one root. The state is the pair of configurations
      so far (by name; None: the zero value), and which kinds this root already gave. *)
  Fixpoint read_configs (cfgs : list whconfig) (has : bool * bool) (st : option string * option string) : option (option string * option string) :=
    match cfgs with
    | [] => Some st
    | c :: cfgs' =>
        if wc_mutating c
        then if fst has then None else read_configs cfgs' (true, snd has) (Some (wc_name c), snd st)
        else if snd has then None else read_configs cfgs' (fst has, true) (fst st, Some (wc_name c))
    end.

  (** Webhooks by version. pkg/webhook/parser.go:446-449. *)
  Definition vmap := list (string * list webhook).
  (** The loops over the versions, pkg/webhook/parser.go:490-513 *)
  Definition add_versions (vs : list string) (w : webhook) (m : vmap) : vmap := fold_left (fun m v => mapp String.eqb m v w) vs m.
  (** pkg/webhook/parser.go:490-513, the loop over the sorted webhook markers *)
  Fixpoint read_hooks (ord : list string -> list string) (hooks : list hook) (st : vmap * vmap) : option (vmap * vmap) :=
    match hooks with
    | [] => Some st
    | c :: hooks' =>
        match webhook_versions ord c with
        | None => None
        | Some vs =>
            match to_webhook c with
            | None => None
            | Some w => read_hooks ord hooks' (if h_mutating c then (add_versions vs w (fst st), snd st) else (fst st, add_versions vs w (snd st)))
            end
        end
    end.
  (** pkg/webhook/parser.go:485-488, sort.SliceStable by name *)
  Definition sort_hooks : list hook -> list hook := sort_by (fun a b => str_ltb (h_name a) (h_name b)).

  (** What pkg/webhook/parser.go:451-514 reads of a root *)
  Definition root := (list whconfig * list hook)%type.
  (** pkg/webhook/parser.go:451-514, the loop over the roots *)
  Fixpoint read_roots ord (roots : list root) (st : (option string * option string) * (vmap * vmap)) : option ((option string * option string) * (vmap * vmap)) :=
    match roots with
    | [] => Some st
    | (cfgs, hooks) :: roots' =>
        match read_configs cfgs (false, false) (fst st) with
        | None => None
        | Some names =>
            match read_hooks ord (sort_hooks hooks) (snd st) with
            | None => None
            | Some maps => read_roots ord roots' (names, maps)
            end
        end
    end.

  (** pkg/webhook/parser.go:518-553 and 555-590: the object of one kind for one version; None: error *)
  Definition make_object (kind default : string) (name : option string) (m : vmap) (version : string) : option (list object) :=
    match mget String.eqb m version with
    | None => Some []
    | Some ws =>
        if forallb hook_ok ws
        then Some [mkObject kind (match name with Some n => if String.eqb n "" then default else n | None => default end) ws]
        else None
    end.
  (** pkg/webhook/parser.go:604-609 *)
  Definition file_name (version : string) : string := if String.eqb version "v1" then "manifests.yaml" else ("manifests." ++ version ++ ".yaml")%string.
  (** pkg/webhook/parser.go:516-591: the loop over the supported versions, giving the map of versionedWebhooks *)
  Fixpoint make_files (versions : list string) (names : option string * option string) (maps : vmap * vmap) : option (list (string * list object)) :=
    match versions with
    | [] => Some []
    | v :: versions' =>
        match make_object "MutatingWebhookConfiguration" "mutating-webhook-configuration" (fst names) (fst maps) v with
        | None => None
        | Some mo =>
            match make_object "ValidatingWebhookConfiguration" "validating-webhook-configuration" (snd names) (snd maps) v with
            | None => None
            | Some vo =>
                match make_files versions' names maps with
                | None => None
                | Some fs => Some (match mo ++ vo with [] => fs | objs => (file_name v, objs) :: fs end)
                end
            end
        end
    end.
  (** pkg/webhook/parser.go:444-615, Generate *)
  Definition generate (ord : list string -> list string) (roots : list root) : option (list (string * list object)) :=
    match read_roots ord roots ((None, None), ([], [])) with
    | None => None
    | Some (names, maps) => make_files supported names maps
    end.
End Webhook.
