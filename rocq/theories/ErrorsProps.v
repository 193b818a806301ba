(** * Properties C33 and C34. *)

From Coq Require Import List String Bool Arith.
From Verif Require Import GoLib GoLibFacts ErrorsModel ErrorsSpec ErrorsProofs.
Import ListNotations.
Open Scope string_scope.
Open Scope list_scope.

(** ** C33 *)
(** The result has no vendor directory in it, and is the whole path or what follows an occurrence of /vendor/. *)
Theorem nonvendor_suffix s : str_contains (non_vendor_path s) "/vendor/" = false /\
  ((str_contains s "/vendor/" = false /\ non_vendor_path s = s) \/ exists q, s = (q ++ "/vendor/" ++ non_vendor_path s)%string).
Proof. split; [exact (nvp_clean s)|]. destruct (nvp_cases s) as [H|(q & H & _)]; [left; exact H|right; exists q; exact H]. Qed.
Print Assumptions nonvendor_suffix.

(** Unless what remains begins with vendor/, it follows the last occurrence: it is a suffix of what follows any occurrence. *)
Theorem nonvendor_last s p r : has_prefix "vendor/" (non_vendor_path s) = false -> s = (p ++ "/vendor/" ++ r)%string ->
  exists t, r = (t ++ non_vendor_path s)%string.
Proof. exact (nvp_last s p r). Qed.
Print Assumptions nonvendor_last.

Theorem nonvendor_idempotent s : non_vendor_path (non_vendor_path s) = non_vendor_path s.
Proof. exact (nvp_id _ (nvp_clean s)). Qed.
Print Assumptions nonvendor_idempotent.

(** Overlapping occurrences: what follows the last occurrence is shorter. *)
Theorem nonvendor_last_refuted : exists s p r, s = (p ++ "/vendor/" ++ r)%string /\ ~ exists t, r = (t ++ non_vendor_path s)%string.
Proof.
  exists "a/vendor/vendor/x", "a/vendor", "x". split; [reflexivity|]. intros (t & E). vm_compute in E. destruct t as [|c t]; [discriminate|]. injection E as _ E.
  destruct t; discriminate.
Qed.
Print Assumptions nonvendor_last_refuted.
Example nonvendor_demo : non_vendor_path "a/vendor/b/vendor/k8s.io/api" = "k8s.io/api" /\ has_prefix "vendor/" "k8s.io/api" = false.
Proof. split; reflexivity. Qed.

(** ** C34 *)
(** Every error stands for exactly one list of single errors. *)
Theorem error_leaves e : exists ls, leaves e ls /\ forall ls', leaves e ls' -> ls' = ls.
Proof. destruct (leaves_exists _ e (le_n _)) as (ls & H). exists ls. split; [exact H|]. intros ls' H'. exact (leaves_unique _ e (le_n _) ls' ls H' H). Qed.
Print Assumptions error_leaves.

(** Attaching a node and reporting the result reports each single error once, in order, with its text, at the node. *)
Theorem error_positions path_text scan_text type_text position id e pos ls : leaves e ls ->
  exists ss, Forall2 (says path_text scan_text type_text) ls ss /\
    add_error path_text scan_text type_text position id (err_from_node e pos) = map (fun s => mkPErr (position pos) s UnknownError) ss.
Proof. exact (efn_says path_text scan_text type_text position id e pos ls). Qed.
Print Assumptions error_positions.

(** An empty list is no error; a list reports what its elements report. *)
Theorem error_maybe_list path_text scan_text type_text position id l :
  match maybe_err_list l with
  | Some e => l <> [] /\ add_error path_text scan_text type_text position id e = flat_map (add_error path_text scan_text type_text position id) l
  | None => l = []
  end.
Proof. exact (maybe_add path_text scan_text type_text position id l). Qed.
Print Assumptions error_maybe_list.

(** A list of lists with a wrapped list in it *)
Example error_demo : leaves (EList [EPlain "a"; EWrap "w: " (EList [EPlain "b"; EPos 3 (EPlain "c")])]) [EPlain "a"; EPlain "b"; EPos 3 (EPlain "c")].
Proof.
  eapply (leaves_many _ _ [[EPlain "a"]; [EPlain "b"; EPos 3 (EPlain "c")]]); [constructor|]. constructor; [constructor; constructor|]. constructor; [|constructor].
  eapply (leaves_many _ _ [[EPlain "b"]; [EPos 3 (EPlain "c")]]); [constructor; constructor|]. repeat (constructor; [constructor; constructor|]). constructor.
Qed.

(** A position already attached is lost when another is attached around it. *)
Theorem error_inner_position_refuted : exists e p1 p2, p1 <> p2 /\ forall path_text scan_text type_text id,
  add_error path_text scan_text type_text (fun n => if Nat.eqb n p1 then "inner" else "outer") id (err_from_node (err_from_node e p1) p2) = [mkPErr "outer" "m" UnknownError].
Proof. exists (EPlain "m"), 1, 2. split; [discriminate|]. reflexivity. Qed.
Print Assumptions error_inner_position_refuted.

(** What is wrapped around a list is lost when a node is attached. *)
Theorem error_wrapping_refuted : exists pre l, pre <> "" /\ l <> [] /\ forall pos, err_from_node (EWrap pre (EList l)) pos = err_from_node (EList l) pos.
Proof. exists "while loading: ", [EPlain "x"]. split; [discriminate|]. split; [discriminate|]. reflexivity. Qed.
Print Assumptions error_wrapping_refuted.

(** A parse error with a node is no longer a parse error. *)
Theorem error_kind_refuted : exists e, forall path_text scan_text type_text position id pos,
  map pe_kind (add_error path_text scan_text type_text position id e) = [ParseError] /\
  map pe_kind (add_error path_text scan_text type_text position id (err_from_node e pos)) = [UnknownError].
Proof. exists (EPath "f.go" "no such file"). intros. split; reflexivity. Qed.
Print Assumptions error_kind_refuted.
