(** * C26-C27: YAML paths and patching of CRD manifests. *)

From Coq Require Import List String Bool Arith Lia Permutation.
From Verif Require Import GoLib GoLibFacts MapFacts YamlModel YamlSpec YamlProofs YamlProofs2 YamlProofs3.
Import ListNotations.
Open Scope string_scope.
Open Scope list_scope.

(** ** C26 *)

(** Reading a path finds exactly the node reached by following its keys. *)
Theorem yaml_get_finds : forall root path m, paired root ->
  (get_node root path = Some (Some m) <-> exists r, root_of root r /\ found path r m) /\
  (get_node root path = Some None <-> exists r, root_of root r /\ missing path r).
Proof. intros root path m P. split; [exact (get_found root path m P)|exact (get_missing root path P)]. Qed.
Print Assumptions yaml_get_finds.

(** Setting succeeds exactly if reading does. *)
Theorem yaml_set_succeeds : forall root val path, set_node root val path = None <-> get_node root path = None.
Proof.
  intros root val path. rewrite set_rset, get_rget. destruct (rget (start root) path); split; congruence.
Qed.
Print Assumptions yaml_set_succeeds.

(** After setting a path, reading it (and below it) reads the new value. *)
Theorem yaml_set_get : forall root val path q root', paired root -> path <> [] ->
  set_node root val path = Some root' -> n_kind val <> Document -> get_node root' path = Some (Some val) /\ get_node root' (path ++ q) = get_node val q.
Proof.
  intros root val path q root' P Hp H Hk. split.
  - rewrite <- (app_nil_r path). exact (set_get root val path root' [] P Hp H).
  - rewrite (set_get root val path root' q P Hp H). rewrite get_rget. f_equal. unfold start. destruct val as [[] h c]; simpl in *; congruence.
Qed.
Print Assumptions yaml_set_get.

(** Every path that parts from the set one reads as before. *)
Theorem yaml_set_frame : forall root val path root' q, paired root -> diverge path q ->
  set_node root val path = Some root' -> get_node root' q = get_node root q.
Proof. exact set_frame. Qed.
Print Assumptions yaml_set_frame.

(** Nothing else in the document changes: order of keys, styles, comments; missing keys are appended. *)
Theorem yaml_set_only : forall root val path root', paired root ->
  set_node root val path = Some root' -> in_doc (sets val path) root root'.
Proof. exact set_in_doc. Qed.
Print Assumptions yaml_set_only.

Theorem yaml_set_idempotent : forall root val path root', paired root -> path <> [] ->
  set_node root val path = Some root' -> set_node root' val path = Some root'.
Proof. exact set_again. Qed.
Print Assumptions yaml_set_idempotent.

Theorem yaml_set_present : forall root val path, get_node root path = Some (Some val) -> set_node root val path = Some root.
Proof.
  intros root val path. rewrite get_rget. intros H. rewrite set_rset, H. f_equal. apply restart_id, rset_same, H.
Qed.
Print Assumptions yaml_set_present.

(** After deleting a path nothing is found there, if keys are unique. *)
Theorem yaml_delete_get : forall root path key root' q, unique_keys root ->
  delete_node root (path ++ [key]) = Some root' -> get_node root' (path ++ key :: q) = Some None.
Proof. exact delete_get. Qed.
Print Assumptions yaml_delete_get.

Theorem yaml_delete_frame : forall root path root' q, diverge path q ->
  delete_node root path = Some root' -> get_node root' q = get_node root q.
Proof. exact delete_frame. Qed.
Print Assumptions yaml_delete_frame.

Theorem yaml_delete_only : forall root path root', paired root ->
  delete_node root path = Some root' -> in_doc (deletes path) root root'.
Proof. exact delete_in_doc. Qed.
Print Assumptions yaml_delete_only.

(** Deleting what is absent succeeds without a change; deleting fails exactly if the parent is no mapping or cannot be read. *)
Theorem yaml_delete_fails : forall root path key,
  delete_node root (path ++ [key]) = None <-> get_node root path = None \/ exists m, get_node root path = Some (Some m) /\ is_mapping m = false.
Proof.
  intros root path key. rewrite delete_rdel, get_rget. destruct (rget (start root) path) as [[m|]|].
  - destruct (is_mapping m) eqn:E; split; try discriminate; [intros [H|(m' & [= <-] & H)]; congruence|intros _; right; exists m; auto|reflexivity].
  - split; [discriminate|]. intros [H|(m & H & _)]; discriminate.
  - split; auto.
Qed.
Print Assumptions yaml_delete_fails.

Definition scal (s : string) : node := Node Scalar (mkHead 0 "" s "" "" "" "") [].
Definition mp (ps : list (string * node)) : node := Node Mapping head0 (unpair (map (fun p => (scal (fst p), snd p)) ps)).
Definition sq (l : list node) : node := Node Sequence head0 l.
Definition dc (n : node) : node := Node Document head0 [n].

(** With a duplicate key, deleting removes only the first. *)
Theorem yaml_delete_duplicates_refuted : exists root path key root' m, paired root /\
  delete_node root (path ++ [key]) = Some root' /\ get_node root' (path ++ [key]) = Some (Some m).
Proof.
  exists (dc (mp [("a", scal "1"); ("a", scal "2")])), [], "a". eexists. eexists. split.
  - intros x Hx. cbn in Hx. repeat (destruct Hx as [<-|Hx]; [cbn; congruence|]). destruct Hx.
  - split; reflexivity.
Qed.
Print Assumptions yaml_delete_duplicates_refuted.

Ltac ynodes := intros x Hx; cbn in Hx; repeat (destruct Hx as [<-|Hx]; [cbn|]); try (destruct Hx; fail).
Definition ydemo : node := dc (mp [("kind", scal "X"); ("spec", mp [("a", scal "1"); ("b", mp [("c", scal "2")])]); ("z", sq [scal "q"])]).
Example ydemo_ok : paired ydemo /\ unique_keys ydemo.
Proof. split; ynodes; try congruence; intros _; repeat constructor; cbn; intuition discriminate. Qed.
Example ydemo_runs :
  set_node ydemo (scal "9") ["spec"; "b"; "d"; "e"] =
    Some (dc (mp [("kind", scal "X"); ("spec", mp [("a", scal "1"); ("b", Node Mapping head0 (unpair [(scal "c", scal "2"); (key_node "d", nested ["e"] (scal "9"))]))]); ("z", sq [scal "q"])])) /\
  delete_node ydemo ["spec"; "a"] = Some (dc (mp [("kind", scal "X"); ("spec", mp [("b", mp [("c", scal "2")])]); ("z", sq [scal "q"])])) /\
  set_node ydemo (scal "9") ["kind"; "b"] = None /\ delete_node ydemo ["spec"; "n"; "m"] = Some ydemo /\
  diverge ["spec"; "b"; "d"] ["spec"; "a"].
Proof.
  split; [reflexivity|]. split; [reflexivity|]. split; [reflexivity|]. split; [reflexivity|].
  exists ["spec"], "b", "a", ["d"], []. split; [reflexivity|]. split; [reflexivity|discriminate].
Qed.

(** ** C27 *)

(** Only spec.validation and the schemata below spec.versions change. *)
Theorem patch_only_schemata : forall (T : Type) (to_yaml : T -> option node) (short_tag : node -> string) (new : list (string * T)) doc doc',
  paired doc -> set_versioned T to_yaml short_tag new doc = Done doc' -> patched T to_yaml new doc doc'.
Proof. exact set_versioned_patched. Qed.
Print Assumptions patch_only_schemata.

Theorem patch_frame : forall (T : Type) (to_yaml : T -> option node) (short_tag : node -> string) (new : list (string * T)) doc doc' q,
  set_versioned T to_yaml short_tag new doc = Done doc' ->
  diverge ["spec"; "validation"] q -> diverge ["spec"; "versions"] q -> get_node doc' q = get_node doc q.
Proof. exact patched_frame. Qed.
Print Assumptions patch_frame.

Theorem patch_validation_gone : forall (T : Type) (to_yaml : T -> option node) (short_tag : node -> string) (new : list (string * T)) doc doc' r,
  unique_keys doc -> set_versioned T to_yaml short_tag new doc = Done doc' -> get_node doc' ("spec" :: "validation" :: r) = Some None.
Proof. exact patched_validation. Qed.
Print Assumptions patch_validation_gone.

(** The versions stay in number and order. Each keeps its other fields, and gets the new schema or loses its old one. *)
Theorem patch_version_schemata : forall (T : Type) (to_yaml : T -> option node) (short_tag : node -> string) (new : list (string * T)) doc doc',
  paired doc -> unique_keys doc -> set_versioned T to_yaml short_tag new doc = Done doc' ->
  exists h vs vs', get_node doc ["spec"; "versions"] = Some (Some (Node Sequence h vs)) /\ get_node doc' ["spec"; "versions"] = Some (Some (Node Sequence h vs')) /\
    Forall2 (fun v v' => exists name, get_node v ["name"] = Some (Some name) /\
      (forall b q, b <> "schema" -> get_node v' (b :: q) = get_node v (b :: q)) /\
      match mget String.eqb new (n_value name) with
      | Some s => exists y, to_yaml s = Some y /\ get_node v' ["schema"; "openAPIV3Schema"] = Some (Some (set_style 0 y)) /\
                    forall b q, b <> "openAPIV3Schema" -> get_node v' ("schema" :: b :: q) = get_node v ("schema" :: b :: q)
      | None => get_node v' ["schema"] = Some None
      end) vs vs'.
Proof.
  intros T to_yaml short_tag new doc doc' P U H. destruct (patched_versions T to_yaml short_tag new doc doc' H) as (vs & l & H1 & H2 & H3 & H4).
  exists (n_head vs), (n_content vs), l. split; [rewrite H1; destruct vs; simpl in *; subst; reflexivity|].
  split; [rewrite H3; unfold set_content; rewrite H2; reflexivity|].
  assert (Pu : forall v, In v (n_content vs) -> paired v /\ unique_keys v).
  { intros v Hv. rewrite get_rget in H1. split.
    - eapply paired_child; [|exact Hv]. eapply redit_paired_get; [|exact H1]. apply paired_start, P.
    - eapply unique_child; [|exact Hv]. eapply unique_get; [|exact H1]. apply unique_start, U. }
  revert H4 Pu. generalize (n_content vs) as c. clear. intros c H4 Pu. induction H4 as [|v v' c l Hv Hl IH]; constructor; [|apply IH; intros; apply Pu; right; assumption].
  destruct (Pu v (or_introl eq_refl)) as [P U]. exact (version_result T to_yaml short_tag new v v' P U Hv).
Qed.
Print Assumptions patch_version_schemata.

(** Patching a patched manifest again changes nothing. *)
Theorem patch_idempotent : forall (T : Type) (to_yaml : T -> option node) (short_tag : node -> string) (new : list (string * T)) doc doc',
  paired doc -> unique_keys doc -> set_versioned T to_yaml short_tag new doc = Done doc' -> set_versioned T to_yaml short_tag new doc' = Done doc'.
Proof. exact set_versioned_again. Qed.
Print Assumptions patch_idempotent.

(** The patcher does not panic if every version has a name, and does otherwise. *)
Theorem patch_no_panic : forall (T : Type) (to_yaml : T -> option node) (short_tag : node -> string) (new : list (string * T)) doc,
  (forall vs, get_node doc ["spec"; "versions"] = Some (Some vs) -> forall v, In v (n_content vs) -> exists name, get_node v ["name"] = Some (Some name)) ->
  set_versioned T to_yaml short_tag new doc <> Panics.
Proof. exact set_versioned_no_panic. Qed.
Print Assumptions patch_no_panic.

Definition crd (vs : list node) : node := dc (mp [("metadata", mp [("name", scal "x")]); ("spec", mp [("group", scal "g"); ("validation", mp []); ("versions", sq vs)])]).
Theorem patch_nameless_version_refuted : exists doc, paired doc /\ unique_keys doc /\
  set_versioned node Some (fun _ => "!!str") [("v1", mp [])] doc = Panics.
Proof.
  exists (crd [mp [("served", scal "true")]]). split; [|split; [|reflexivity]]; ynodes; try congruence; intros _; repeat constructor; cbn; intuition discriminate.
Qed.
Print Assumptions patch_nameless_version_refuted.

Definition crd2 : node := crd [mp [("name", scal "v1"); ("schema", mp [("openAPIV3Schema", mp [("type", scal "string")])])]; mp [("name", scal "v2"); ("schema", mp [])]; mp [("name", scal "v3")]].
Example crd2_ok : paired crd2 /\ unique_keys crd2.
Proof. split; ynodes; try congruence; intros _; repeat constructor; cbn; intuition discriminate. Qed.
Example crd2_runs : set_versioned node Some (fun _ => "!!str") [("v1", mp [("type", scal "object")]); ("v3", scal "s")] crd2 =
  Done (dc (mp [("metadata", mp [("name", scal "x")]); ("spec", mp [("group", scal "g"); ("versions", sq
    [mp [("name", scal "v1"); ("schema", mp [("openAPIV3Schema", mp [("type", scal "object")])])]; mp [("name", scal "v2")];
     Node Mapping head0 (unpair [(scal "name", scal "v3"); (key_node "schema", nested ["openAPIV3Schema"] (scal "s"))])])])])).
Proof. reflexivity. Qed.

(** *** The whole run *)

(** Every manifest read is written once. One without a matching kind and version in the sources is written unchanged. The
    others get exactly the schemata of the packages that hold one of the versions listed in a manifest of the group-kind. *)
Theorem patcher_files : forall (T : Type) (to_yaml : T -> option node) (short_tag : node -> string) (schema_of : string -> string -> T)
    ord ord_s kinds gvs sets out,
  is_order ord -> is_order ord_s -> NoDup kinds -> NoDup (map fst sets) -> NoDup (map snd gvs) ->
  (forall e, In e sets -> cs_new T (snd e) = [] /\ forall f, In f (cs_docs T (snd e)) -> paired (snd f)) ->
  generate T to_yaml short_tag schema_of ord ord_s kinds gvs sets = Done out ->
  exists outs, Forall2 (fun e o => Forall2 (file_result T to_yaml schema_of kinds gvs (fst e) (cs_versions T (snd e))) (cs_docs T (snd e)) o) sets outs /\
    Permutation out (List.concat outs).
Proof. exact generate_files. Qed.
Print Assumptions patcher_files.

(** The map orders do not matter, if no two packages have the same group and version. *)
Theorem patcher_deterministic : forall (T : Type) (to_yaml : T -> option node) (short_tag : node -> string) (schema_of : string -> string -> T)
    ord ord_s ord' ord_s' kinds gvs sets out,
  is_order ord -> is_order ord_s -> is_order ord' -> is_order ord_s' -> NoDup kinds -> NoDup (map fst sets) -> NoDup (map snd gvs) ->
  generate T to_yaml short_tag schema_of ord ord_s kinds gvs sets = Done out ->
  exists out', generate T to_yaml short_tag schema_of ord' ord_s' kinds gvs sets = Done out' /\ Permutation out out'.
Proof. exact generate_det. Qed.
Print Assumptions patcher_deterministic.

Theorem patcher_same_version_refuted : exists (ord ord' : list (string * (string * string)) -> list (string * (string * string))) kinds gvs sets out out',
  is_order ord /\ is_order ord' /\ NoDup kinds /\ NoDup (map fst sets) /\ NoDup (map fst gvs) /\
  generate node Some (fun _ => "!!str") (fun pkg _ => scal pkg) ord (fun l => l) kinds gvs sets = Done [out] /\
  generate node Some (fun _ => "!!str") (fun pkg _ => scal pkg) ord' (fun l => l) kinds gvs sets = Done [out'] /\ out <> out'.
Proof.
  exists (fun l => l), (@rev _), [("g", "K")], [("p", ("g", "v1")); ("q", ("g", "v1"))], [(("g", "K"), mkSet node ["v1"] [] [("f", crd [mp [("name", scal "v1")]])])].
  eexists. eexists. split; [intros l; apply Permutation_refl|]. split; [intros l; apply Permutation_sym, Permutation_rev|].
  split; [repeat constructor; cbn; tauto|]. split; [repeat constructor; cbn; tauto|]. split; [repeat constructor; cbn; intuition discriminate|].
  split; [vm_compute; reflexivity|]. split; [vm_compute; reflexivity|]. intros E. injection E. discriminate.
Qed.
Print Assumptions patcher_same_version_refuted.

(** The files of one group-kind are gathered: they count as one set of listed versions, in the order of the files. *)
Theorem patcher_load : forall (T : Type) files,
  NoDup (map fst (load T files)) /\
  (forall g s, mget gk_eqb (load T files) g = Some s ->
     cs_new T s = [] /\ cs_docs T s = map (fun f => (fst f, snd (snd f))) (filter (fun f => gk_eqb (fst (fst (snd f))) g) files) /\
     forall v, In v (cs_versions T s) <-> exists f, In f files /\ fst (fst (snd f)) = g /\ In v (snd (fst (snd f)))) /\
  (forall g, mget gk_eqb (load T files) g = None <-> forall f, In f files -> fst (fst (snd f)) <> g).
Proof. exact load_spec. Qed.
Print Assumptions patcher_load.

Definition sets_demo : list (gk * crdset node) :=
  load node [("f1", (("g", "K"), ["v1"; "v2"; "v3"], crd2)); ("f2", (("h", "L"), ["v1"], crd [mp [("name", scal "v1")]]))].
Example patcher_demo : exists out, generate node Some (fun _ => "!!str") (fun pkg kind => scal pkg) (fun l => l) (fun l => l)
    [("g", "K")] [("p1", ("g", "v1")); ("p3", ("g", "v3")); ("p4", ("g", "v4")); ("q", ("h", "v1"))] sets_demo = Done out /\ List.length out = 2 /\
  NoDup (map fst sets_demo) /\ forall e, In e sets_demo -> cs_new node (snd e) = [] /\ forall f, In f (cs_docs node (snd e)) -> paired (snd f).
Proof.
  eexists. split; [vm_compute; reflexivity|]. split; [reflexivity|]. split; [repeat constructor; cbn; intuition discriminate|].
  intros e [<-|[<-|[]]]; (split; [reflexivity|]); intros f [<-|[]]; ynodes; congruence.
Qed.
