(** * What setting and deleting a path means, as relations between documents. *)

From Coq Require Import List String Bool Arith.
From Verif Require Import GoLib YamlModel.
Import ListNotations.
Open Scope string_scope.
Open Scope list_scope.

(** Mappings have keys and values in pairs (as every parsed document does). *)
Fixpoint nodes (n : node) : list node := n :: flat_map nodes (n_content n).
Definition paired (n : node) : Prop := forall x, In x (nodes n) -> n_kind x = Mapping -> Nat.even (List.length (n_content x)) = true.

Fixpoint unpair (ps : list (node * node)) : list node := match ps with [] => [] | (k, v) :: ps' => k :: v :: unpair ps' end.
Definition key_free (k : string) (ps : list (node * node)) : Prop := forall p, In p ps -> n_value (fst p) <> k.

(** [edit R path old new]: new is old, with the node reached by following the keys of path (the first one of each name)
    changed by R, and nothing else. *)
Inductive edit (R : node -> node -> Prop) : list string -> node -> node -> Prop :=
| edit_here old new : R old new -> edit R [] old new
| edit_key h ps1 kn old new ps2 rest : key_free (n_value kn) ps1 -> edit R rest old new ->
    edit R (n_value kn :: rest) (Node Mapping h (unpair (ps1 ++ (kn, old) :: ps2))) (Node Mapping h (unpair (ps1 ++ (kn, new) :: ps2))).

(** The content of a document node is what a path starts from. *)
Inductive in_doc (E : node -> node -> Prop) : node -> node -> Prop :=
| in_document h c c' rest : E c c' -> in_doc E (Node Document h (c :: rest)) (Node Document h (c' :: rest))
| in_plain n n' : (n_kind n = Document -> n_content n = []) -> E n n' -> in_doc E n n'.

(** The node reached by following the keys of a path. *)
Inductive found : list string -> node -> node -> Prop :=
| found_here n : found [] n n
| found_key h ps1 kn v ps2 rest m : key_free (n_value kn) ps1 -> found rest v m ->
    found (n_value kn :: rest) (Node Mapping h (unpair (ps1 ++ (kn, v) :: ps2))) m.
(** The path ends at a mapping without the next key. *)
Inductive missing : list string -> node -> Prop :=
| missing_here h ps k rest : key_free k ps -> missing (k :: rest) (Node Mapping h (unpair ps))
| missing_key h ps1 kn v ps2 rest : key_free (n_value kn) ps1 -> missing rest v ->
    missing (n_value kn :: rest) (Node Mapping h (unpair (ps1 ++ (kn, v) :: ps2))).
Inductive root_of : node -> node -> Prop :=
| root_document h c rest : root_of (Node Document h (c :: rest)) c
| root_plain n : (n_kind n = Document -> n_content n = []) -> root_of n n.

(** A mapping gets a new pair at its end. *)
Definition adds (k : string) (v : node) (old new : node) : Prop :=
  exists h ps kn, key_free k ps /\ n_value kn = k /\ n_kind kn = Scalar /\ n_content kn = [] /\
    old = Node Mapping h (unpair ps) /\ new = Node Mapping h (unpair (ps ++ [(kn, v)])).
(** A chain of one-entry mappings. *)
Inductive chain_to (val : node) : list string -> node -> Prop :=
| chain_val : chain_to val [] val
| chain_key kn rest n : n_kind kn = Scalar -> n_content kn = [] -> chain_to val rest n ->
    chain_to val (n_value kn :: rest) (Node Mapping head0 [kn; n]).

(** Setting: the value at the path is replaced; or, where the path ends early, the missing part is appended. *)
Inductive sets (val : node) (path : list string) : node -> node -> Prop :=
| sets_old old new : edit (fun _ n => n = val) path old new -> sets val path old new
| sets_new p1 k p2 m old new : path = p1 ++ k :: p2 -> chain_to val p2 m -> edit (adds k m) p1 old new -> sets val path old new.

(** Deleting the last key of the path from its mapping; or nothing, if it or a mapping on the way is absent. *)
Definition drops (k : string) (old new : node) : Prop :=
  exists h ps1 kn v ps2, key_free k ps1 /\ n_value kn = k /\
    old = Node Mapping h (unpair (ps1 ++ (kn, v) :: ps2)) /\ new = Node Mapping h (unpair (ps1 ++ ps2)).
Definition lacks (k : string) (old new : node) : Prop := old = new /\ exists h ps, old = Node Mapping h (unpair ps) /\ key_free k ps.
Inductive deletes (path : list string) : node -> node -> Prop :=
| del_found p k old new : path = p ++ [k] -> edit (drops k) p old new -> deletes path old new
| del_absent p1 k p2 old new : path = p1 ++ k :: p2 -> edit (lacks k) p1 old new -> deletes path old new.

(** Two paths that part ways. *)
Definition diverge (p q : list string) : Prop := exists c a b p' q', p = c ++ a :: p' /\ q = c ++ b :: q' /\ a <> b.

(** No mapping has two keys of the same name. *)
Fixpoint pair_keys (c : list node) : list string := match c with k :: _ :: c' => n_value k :: pair_keys c' | _ => [] end.
Definition unique_keys (n : node) : Prop := forall x, In x (nodes n) -> n_kind x = Mapping -> NoDup (pair_keys (n_content x)).

(** ** Patching *)
Section PatchSpec.
  Variable T : Type.
  Variable to_yaml : T -> option node.
  Variable new : list (string * T).

  (** One entry of spec.versions: its schema is set if there is a new one under its name, and removed otherwise. *)
  Definition version_patched (v v' : node) : Prop :=
    exists r name, root_of v r /\ found ["name"] r name /\ n_value name <> "" /\
      match mget String.eqb new (n_value name) with
      | Some s => exists y, to_yaml s = Some y /\ in_doc (sets (set_style 0 y) ["schema"; "openAPIV3Schema"]) v v'
      | None => in_doc (deletes ["schema"]) v v'
      end.
  Definition versions_patched (old new : node) : Prop :=
    exists h l l', old = Node Sequence h l /\ new = Node Sequence h l' /\ Forall2 version_patched l l'.
  (** spec.validation is removed, the entries of spec.versions are patched in place, and nothing else changes. *)
  Definition patched (doc doc' : node) : Prop :=
    exists mid, in_doc (deletes ["spec"; "validation"]) doc mid /\ in_doc (edit versions_patched ["spec"; "versions"]) mid doc'.
End PatchSpec.

Section GenSpec.
  Variable T : Type.
  Variable to_yaml : T -> option node.
  Variable schema_of : string -> string -> T.
  Variable kinds : list gk.
  Variable gvs : list (string * (string * string)).

  (** [t] is the schema of version [v] of the group-kind [g]: the kind is found in the sources, a manifest lists the
      version, and a package holds it. *)
  Definition schema_for (g : gk) (versions : list string) (v : string) (t : T) : Prop :=
    In g kinds /\ In v versions /\ exists pkg, In (pkg, (fst g, v)) gvs /\ t = schema_of pkg (snd g).
  (** What becomes of one manifest. *)
  Definition file_result (g : gk) (versions : list string) (f f' : string * node) : Prop :=
    fst f' = fst f /\
    ((forall v t, ~ schema_for g versions v t) -> snd f' = snd f) /\
    ((exists v t, schema_for g versions v t) -> exists new,
       (forall v t, mget String.eqb new v = Some t <-> schema_for g versions v t) /\ patched T to_yaml new (snd f) (snd f')).
End GenSpec.
