(** * Hypotheses and notions used by the flattening properties. *)

From Coq Require Import List String Bool.
From Verif Require Import GoLib SchemaModel SchemaFacts WalkProofs ValidSpec.
Import ListNotations.
Open Scope string_scope.
Open Scope list_scope.

Definition all_nodes (Q : schema -> Prop) (s : schema) : Prop := forall x, In x (subschemas s) -> Q x.

(** The vocabulary CRDs use: maps without repeated keys, references already resolved, no exclusive-bound flags, no tuple
    items, no patternProperties, no "additionalProperties: false" (the last three are rejected by the API server). *)
Definition plain_node (s : schema) : Prop :=
  node_wf s /\ k_ref (s_kw s) = None /\ k_excl_max (s_kw s) = false /\ k_excl_min (s_kw s) = false /\
  (match s_items s with Some (_, l) => l = [] | None => True end) /\
  s_patprops s = [] /\ s_addl s <> Some (false, None).
Definition plain : schema -> Prop := all_nodes plain_node.

(** A node does not have both properties and a schema for additional properties (the API server rejects such nodes). *)
Definition unmixed_node (s : schema) : Prop :=
  s_props s = [] \/ match s_addl s with Some (_, Some _) => False | _ => True end.
Definition unmixed : schema -> Prop := all_nodes unmixed_node.

(** Below oneOf and not there is no allOf. *)
Definition positive_node (s : schema) : Prop :=
  forall c, In c (s_oneOf s) \/ s_not s = Some c -> all_nodes (fun x => s_allOf x = []) c.
Definition positive : schema -> Prop := all_nodes positive_node.

(** What flattening leaves under an allOf: nothing that it knows how to merge. *)
Definition remainder_node (s : schema) : Prop :=
  s_allOf s = [] /\ s_props s = [] /\ s_addl s = None /\
  k_type (s_kw s) = "" /\ k_required (s_kw s) = [] /\ k_x_validations (s_kw s) = [] /\ k_x_preserve (s_kw s) = None /\
  k_x_map_type (s_kw s) = None /\ k_title (s_kw s) = "" /\ k_desc (s_kw s) = "" /\ k_example (s_kw s) = None /\
  k_ext_docs (s_kw s) = None /\ k_nullable (s_kw s) = false /\ k_excl_max (s_kw s) = false /\ k_excl_min (s_kw s) = false /\
  k_unique_items (s_kw s) = false /\ k_x_embedded (s_kw s) = false /\ k_x_int_or_string (s_kw s) = false.

(** ** References *)
Definition no_ref (s : schema) : Prop := k_ref (s_kw s) = None \/ k_ref (s_kw s) = Some "".

Section Inline.
  Variable lookup : string -> string -> option (string * string).
  Variable env : (string * string) -> option schema.
  (** How a field's own schema and the schema of its type combine. *)
  Variable combine : schema -> schema -> schema.

  (** [inlined pkg s t]: t is s with every reference, read in package pkg, replaced by the combination of the inlined
      type and the field. *)
  Inductive inlined : string -> schema -> schema -> Prop :=
  | inl_node pkg s g : no_ref s -> (forall c, In c (children s) -> inlined pkg c (g c)) -> inlined pkg s (map_children g s)
  | inl_ref pkg s r id base b : k_ref (s_kw s) = Some r -> r <> "" -> lookup r pkg = Some id -> env id = Some base ->
      inlined (fst id) base b -> inlined pkg s (combine b s).

  (** The links followed from a node while the types found are themselves only references (aliases). *)
  Fixpoint alias_links (n : nat) (pkg : string) (s : schema) : list string :=
    match n with
    | 0 => []
    | S n' =>
        match k_ref (s_kw s) with
        | Some (String _ _ as r) =>
            r :: match lookup r pkg with
                 | Some id => match env id with Some base => alias_links n' (fst id) base | None => [] end
                 | None => []
                 end
        | _ => []
        end
    end.

  (** References are leaves, lead to known types of smaller rank, and no alias chain contains a link twice. *)
  Definition ref_node (rank : string * string -> nat) (k : nat) (pkg : string) (x : schema) : Prop :=
    node_wf x /\ (forall n, NoDup (alias_links n pkg x)) /\
    forall r, k_ref (s_kw x) = Some r -> r <> "" ->
      children x = [] /\ exists id base, lookup r pkg = Some id /\ env id = Some base /\ rank id < k.
  Definition closed_below rank k pkg : schema -> Prop := all_nodes (ref_node rank k pkg).
  Definition acyclic_env (rank : string * string -> nat) : Prop :=
    forall id base, env id = Some base -> closed_below rank (rank id) (fst id) base.
End Inline.

(** ** What references mean
    The same oracles with references read as given. *)
Definition with_refs (O : oracles) (f : string -> json -> bool) : oracles :=
  mkOracles (o_jeq O) (o_strlen O) (o_pattern O) (o_format O) (o_cel O) f (o_embedded O) (o_multiple O).
(** [sem pkg r v]: v satisfies what r stands for in package pkg, namely the schema of the type r leads to. *)
Definition refs_mean (O : oracles) (lookup : string -> string -> option (string * string)) (env : string * string -> option schema)
    (sem : string -> string -> json -> bool) : Prop :=
  forall pkg r id base v, lookup r pkg = Some id -> env id = Some base -> sem pkg r v = valid (with_refs O (sem (fst id))) base v.
(** No tuple items and no patternProperties. *)
Definition simple_node (s : schema) : Prop := (match s_items s with Some (_, l) => l = [] | None => True end) /\ s_patprops s = [].

(** ** Documentation *)
Section Docs.
  Variable lookup : string -> string -> option (string * string).
  Variable env : (string * string) -> option schema.
  Context {A : Type}.
  Variable get : kw -> A.
  Variable zero : A.
  (** The documentation that should appear at a node: its own when set, otherwise that of its type. *)
  Inductive doc_is : string -> schema -> A -> Prop :=
  | doc_own pkg s : get (s_kw s) <> zero -> doc_is pkg s (get (s_kw s))
  | doc_none pkg s : get (s_kw s) = zero -> no_ref s -> doc_is pkg s zero
  | doc_type pkg s r id base d : get (s_kw s) = zero -> k_ref (s_kw s) = Some r -> r <> "" -> lookup r pkg = Some id -> env id = Some base ->
      doc_is (fst id) base d -> doc_is pkg s d.
End Docs.
(** The documentation of a node. *)
Definition docs_of (s : schema) := (k_title (s_kw s), k_desc (s_kw s), k_example (s_kw s), k_ext_docs (s_kw s)).
