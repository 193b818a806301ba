(** * Properties C24 and C25 of the webhook generator. *)

From Coq Require Import List String Ascii Bool ZArith Permutation Sorted Lia.
From Verif Require Import GoLib GoLibFacts WebhookModel WebhookSpec WebhookProofs.
Import ListNotations.
Open Scope string_scope.
Open Scope list_scope.

(** ** C24 *)

(** A successful run writes at most one file, [manifests.yaml], holding the mutating and then the validating object;
    an object is there iff there is a marker of its kind; its webhooks are, root after root, all the markers of the
    kind in order of name (stably), each converted as the marker says; its name is that of the last
    webhookconfiguration marker of the kind, or the default. *)
Theorem webhook_manifest (lower : string -> string) ord roots files : is_order ord -> generate lower ord roots = Some files ->
  exists muts vals, collected lower true roots muts /\ collected lower false roots vals /\
    files = match (match muts with [] => [] | _ => [mkObject "MutatingWebhookConfiguration" (object_name true roots) muts] end) ++
                  (match vals with [] => [] | _ => [mkObject "ValidatingWebhookConfiguration" (object_name false roots) vals] end)
            with [] => [] | objs => [("manifests.yaml", objs)] end.
Proof. intros O H. destruct (generate_some lower ord roots files O H) as (m & v & H1 & H2 & _ & H3). exists m, v. auto. Qed.
Print Assumptions webhook_manifest.

(** The generator refuses exactly the roots that have two webhookconfiguration markers of a kind or an unacceptable marker. *)
Theorem webhook_refused (lower : string -> string) ord roots : is_order ord -> (generate lower ord roots = None <->
  (exists r m, In r roots /\ 2 <= List.length (filter (fun c => Bool.eqb (wc_mutating c) m) (fst r))) \/ (exists r c, In r roots /\ In c (snd r) /\ ~ acceptable lower c)).
Proof. exact (generate_none lower ord roots). Qed.
Print Assumptions webhook_refused.

(** The iteration order of the version set does not show. *)
Theorem webhook_deterministic (lower : string -> string) ord ord' roots : is_order ord -> is_order ord' -> generate lower ord roots = generate lower ord' roots.
Proof. exact (generate_order lower ord ord' roots). Qed.
Print Assumptions webhook_deterministic.

(** The rule of a webhook is for exactly the requests the marker asks for. *)
Theorem webhook_requests (lower : string -> string) (res_matches : string -> string -> bool) c w group version resource op :
  NoDup (map lower ["CREATE"; "UPDATE"; "DELETE"; "CONNECT"; "*"]) -> converted lower c w -> In op operations ->
  (exists r, In r (w_rules w) /\ rule_matches res_matches r group version resource op) <-> marker_matches lower res_matches c group version resource op.
Proof. intros N. exact (converted_match lower N res_matches c w group version resource op). Qed.
Print Assumptions webhook_requests.

(** ** C25 *)

(** Every webhook written satisfies the v1 constraints. *)
Theorem webhook_v1_valid (lower : string -> string) ord roots files name objs o w : is_order ord -> generate lower ord roots = Some files ->
  In (name, objs) files -> In o objs -> In w (o_webhooks o) -> v1_ok w.
Proof.
  intros O H Hf Ho Hw. destruct (generate_some lower ord roots files O H) as (m & v & _ & _ & G & ->). rewrite Forall_forall in G. apply G.
  apply in_or_app. destruct m as [|m1 m]; destruct v as [|v1 v]; simpl in Hf; destruct Hf as [E|[]] || destruct Hf; injection E as <- <-; simpl in Ho;
    repeat (destruct Ho as [Ho|Ho]; [subst o; simpl in Hw; auto|]); destruct Ho.
Qed.
Print Assumptions webhook_v1_valid.

(** A timeout that fits in 32 bits is written as asked; zero is no timeout. *)
Theorem webhook_timeout (lower : string -> string) c w : converted lower c w -> (-2147483648 <= h_timeout c < 2147483648)%Z ->
  w_timeout w = if Z.eqb (h_timeout c) 0 then None else Some (h_timeout c).
Proof. exact (timeout_small lower c w). Qed.
Print Assumptions webhook_timeout.

(** ** A concrete run *)
Definition lower_char (a : ascii) : ascii := let n := nat_of_ascii a in if Nat.leb 65 n && Nat.leb n 90 then ascii_of_nat (n + 32) else a.
Fixpoint lower_demo (s : string) : string := match s with EmptyString => EmptyString | String a s' => String (lower_char a) (lower_demo s') end.
Definition demo (m : bool) (name : string) : hook :=
  mkHook m "ignore" "" "none" 10 ["core"; "apps"] ["pods"; "deployments"] ["create"; "Update"] ["v1"] name "" "" "/x" None ["v1"; "v1"] ["v1"] "" "".
Definition demo_roots : list root := [([mkWhConfig true "mine"], [demo true "b"; demo false "c"; demo true "a"]); ([], [demo true "a"])].
Example demo_order : is_order (fun l : list string => l).
Proof. intros l. apply Permutation_refl. Qed.
Example demo_lower : NoDup (map lower_demo ["CREATE"; "UPDATE"; "DELETE"; "CONNECT"; "*"]).
Proof. vm_compute. repeat constructor; simpl; intros H; repeat (destruct H as [H|H]; [discriminate|]); exact H. Qed.
Example demo_run : exists files, generate lower_demo (fun l => l) demo_roots = Some files /\
  map (fun f => (fst f, map (fun o => (o_kind o, o_name o, map w_name (o_webhooks o))) (snd f))) files =
  [("manifests.yaml", [("MutatingWebhookConfiguration", "mine", ["a"; "b"; "a"]); ("ValidatingWebhookConfiguration", "validating-webhook-configuration", ["c"])])].
Proof. eexists. split; [reflexivity|]. vm_compute. reflexivity. Qed.
Example demo_request : marker_matches lower_demo String.eqb (demo true "b") "" "v1" "pods" "UPDATE".
Proof.
  unfold marker_matches. split; [exists "core"; simpl; auto|]. split; [exists "v1"; simpl; auto|]. split; [exists "pods"; simpl; auto|]. exists "Update". split; [simpl; auto|]. right. reflexivity.
Qed.
Example demo_bad : generate lower_demo (fun l => l) [([], [mkHook true "ignore" "" "Some" 10 [] [] [] [] "n" "" "" "/x" None [] ["v1"] "" ""])] = None.
Proof. reflexivity. Qed.

(** ** What does not hold *)

(** The webhooks of an object are sorted per package only. *)
Theorem webhook_sorted_refuted : exists lower ord roots name o, is_order ord /\ generate lower ord roots = Some [(name, [o])] /\ map w_name (o_webhooks o) = ["b"; "a"].
Proof.
  exists lower_demo, (fun l => l), [([], [demo true "b"]); ([], [demo true "a"])]. do 2 eexists. split; [exact demo_order|]. split; [vm_compute; reflexivity|]. reflexivity.
Qed.
Print Assumptions webhook_sorted_refuted.

(** Two packages may both name the configuration: no error, the last wins. *)
Theorem webhook_config_conflict_refuted : exists lower ord roots name o, is_order ord /\
  flat_map fst roots = [mkWhConfig true "one"; mkWhConfig true "two"] /\ generate lower ord roots = Some [(name, [o])] /\ o_name o = "two".
Proof.
  exists lower_demo, (fun l => l), [([mkWhConfig true "one"], [demo true "b"]); ([mkWhConfig true "two"], [demo true "a"])]. do 2 eexists. split; [exact demo_order|]. split; [reflexivity|].
  split; [vm_compute; reflexivity|]. reflexivity.
Qed.
Print Assumptions webhook_config_conflict_refuted.

(** Two webhooks of an object may have the same name, which the API server refuses. *)
Theorem webhook_names_unique_refuted : exists lower ord roots name o, is_order ord /\ generate lower ord roots = Some [(name, [o])] /\ ~ NoDup (map w_name (o_webhooks o)).
Proof.
  exists lower_demo, (fun l => l), [([], [demo true "a"; demo true "a"])]. do 2 eexists. split; [exact demo_order|]. split; [vm_compute; reflexivity|].
  simpl. intros N. inversion N as [|? ? H _]. apply H. left. reflexivity.
Qed.
Print Assumptions webhook_names_unique_refuted.

(** A timeout of 2^32 + 1 seconds passes for one of 1 second. *)
Theorem webhook_timeout_range_refuted : exists lower c w ord name objs, is_order ord /\ h_timeout c = 4294967297%Z /\
  generate lower ord [([], [c])] = Some [(name, objs)] /\ flat_map o_webhooks objs = [w] /\ w_timeout w = Some 1%Z.
Proof.
  exists lower_demo, (mkHook true "ignore" "" "none" 4294967297 [] [] [] [] "n" "" "" "/x" None [] ["v1"] "" ""). do 1 eexists. exists (fun l => l). do 2 eexists.
  split; [exact demo_order|]. split; [reflexivity|]. split; [vm_compute; reflexivity|]. split; reflexivity.
Qed.
Print Assumptions webhook_timeout_range_refuted.
(** A failure policy that is neither of the two is written as it is. *)
Theorem webhook_failure_policy_refuted : exists lower c ord name o w, is_order ord /\
  generate lower ord [([], [c])] = Some [(name, [o])] /\ o_webhooks o = [w] /\ w_failure w = "sometimes".
Proof.
  exists lower_demo, (mkHook true "sometimes" "" "none" 3 [] [] [] [] "n" "" "" "/x" None [] ["v1"] "" ""), (fun l => l). do 3 eexists.
  split; [exact demo_order|]. split; [vm_compute; reflexivity|]. split; reflexivity.
Qed.
Print Assumptions webhook_failure_policy_refuted.
