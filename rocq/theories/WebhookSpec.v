(** * What a webhook manifest must contain. *)

From Coq Require Import List String Bool ZArith Permutation Sorted.
From Verif Require Import GoLib WebhookModel.
Import ListNotations.
Open Scope string_scope.
Open Scope list_scope.

Section Spec.
  Variable lower : string -> string.

  (** [k] is the word of the table that [s] spells up to letter case. *)
  Definition spells (table : list string) (s k : string) : Prop := In k table /\ lower s = lower k.
  Definition unknown (table : list string) (s : string) : Prop := forall k, In k table -> lower s <> lower k.
  (** Known words are normalised, others kept. *)
  Definition normal (table : list string) (s s' : string) : Prop := spells table s s' \/ (unknown table s /\ s' = s).
  (** Known words are normalised, others dropped. *)
  Definition optional (table : list string) (s : string) (o : option string) : Prop :=
    match o with Some k => spells table s k | None => unknown table s end.

  Definition group_of (g g' : string) : Prop := (g = "core" /\ g' = "") \/ (g <> "core" /\ g' = g).
  Definition default_to (d s s' : string) : Prop := (s = "" /\ s' = d) \/ (s <> "" /\ s' = s).
  Definition client_of (c : hook) (cc : client) : Prop :=
    match cc with
    | Service n ns p port => h_url c = "" /\ p = h_path c /\ p <> "" /\ default_to "webhook-service" (h_service c) n /\
                             default_to "system" (h_namespace c) ns /\ port = h_port c
    | Url u => h_path c = "" /\ u = h_url c /\ u <> ""
    end.
  (** The 32 bit integer congruent to the requested one. *)
  Definition timeout_of (t : Z) (o : option Z) : Prop :=
    match o with None => t = 0%Z | Some t' => t <> 0%Z /\ (-2147483648 <= t' < 2147483648)%Z /\ exists k, (t = t' + k * 4294967296)%Z end.

  (** What a marker means. *)
  Definition converted (c : hook) (w : webhook) : Prop :=
    w_name w = h_name c /\ w_reviews w = h_reviews c /\
    (exists r, w_rules w = [r] /\ r_versions r = h_versions c /\ r_resources r = h_resources c /\
       Forall2 group_of (h_groups c) (r_groups r) /\ Forall2 (normal ["CREATE"; "UPDATE"; "DELETE"; "CONNECT"; "*"]) (h_verbs c) (r_operations r)) /\
    normal ["Ignore"; "Fail"] (h_failure c) (w_failure w) /\
    match w_match w with Some k => spells ["Exact"; "Equivalent"] (h_match c) k | None => lower (h_match c) = "" end /\
    client_of c (w_client w) /\
    optional ["None"; "NoneOnDryRun"; "Some"] (h_side c) (w_side w) /\
    timeout_of (h_timeout c) (w_timeout w) /\
    (if h_mutating c then optional ["Never"; "IfNeeded"] (h_reinvocation c) (w_reinvocation w) else w_reinvocation w = None).

  (** What the API server demands of a v1 webhook, as far as the generator is concerned. *)
  Definition v1_ok (w : webhook) : Prop :=
    (w_side w = Some "None" \/ w_side w = Some "NoneOnDryRun") /\
    (forall t, w_timeout w = Some t -> 1 <= t <= 30)%Z /\ w_reviews w <> [].

  (** A marker the generator must accept. *)
  Definition acceptable (c : hook) : Prop :=
    (forall v, In v (h_whversions c) -> v = "v1") /\
    ((exists k, spells ["Exact"; "Equivalent"] (h_match c) k) \/ lower (h_match c) = "") /\
    ((h_path c = "" /\ h_url c <> "") \/ (h_path c <> "" /\ h_url c = "")) /\
    (exists k, spells ["None"; "NoneOnDryRun"] (h_side c) k) /\
    (forall t, timeout_of (h_timeout c) (Some t) -> 1 <= t <= 30)%Z /\
    h_reviews c <> [].

  Definition of_kind (m : bool) (c : hook) : bool := Bool.eqb (h_mutating c) m.
  Definition named (n : string) (c : hook) : bool := String.eqb (h_name c) n.
  Definition by_name (a b : hook) : Prop := str_leb (h_name a) (h_name b) = true.
  (** The webhooks of one kind of one package: all of its markers of the kind, by name, equal names in marker order. *)
  Definition root_part (m : bool) (r : root) (part : list webhook) : Prop :=
    exists cs, Permutation cs (filter (of_kind m) (snd r)) /\ StronglySorted by_name cs /\
      (forall n, filter (named n) cs = filter (named n) (filter (of_kind m) (snd r))) /\ Forall2 converted cs part.
  Definition collected (m : bool) (roots : list root) (ws : list webhook) : Prop :=
    exists parts, Forall2 (root_part m) roots parts /\ ws = List.concat parts.

  (** The last webhookconfiguration marker of the kind gives the name. *)
  Definition object_name (m : bool) (roots : list root) : string :=
    let n := last (map wc_name (filter (fun c => Bool.eqb (wc_mutating c) m) (flat_map fst roots))) "" in
    if String.eqb n "" then (if m then "mutating-webhook-configuration" else "validating-webhook-configuration") else n.
  Definition kind_name (m : bool) : string := if m then "MutatingWebhookConfiguration" else "ValidatingWebhookConfiguration".

  (** ** Which requests a rule is for *)
  Variable res_matches : string -> string -> bool.
  Definition operations : list string := ["CREATE"; "UPDATE"; "DELETE"; "CONNECT"].
  Definition rule_matches (r : wrule) (group version resource op : string) : Prop :=
    (exists g, In g (r_groups r) /\ (g = "*" \/ g = group)) /\ (exists v, In v (r_versions r) /\ (v = "*" \/ v = version)) /\
    (exists p, In p (r_resources r) /\ res_matches p resource = true) /\ (exists o, In o (r_operations r) /\ (o = "*" \/ o = op)).
  Definition marker_matches (c : hook) (group version resource op : string) : Prop :=
    (exists g, In g (h_groups c) /\ (g = "*" \/ (g = "core" /\ group = "") \/ (g <> "core" /\ g = group))) /\
    (exists v, In v (h_versions c) /\ (v = "*" \/ v = version)) /\
    (exists p, In p (h_resources c) /\ res_matches p resource = true) /\
    (exists v, In v (h_verbs c) /\ (lower v = lower "*" \/ lower v = lower op)).
End Spec.
