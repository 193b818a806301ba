(** * Where a comment has to be written to be one of the package, and what the comments of a package ask for

    Nothing here reads the collector, the registry or the parser: only positions in the file (CollectSpec) and the texts
    of markers (TablesSpec). *)

From Coq Require Import List String Bool Arith QArith.
From Verif Require Import GoLib SchemaModel RegistryModel CollectModel CollectSpec TablesModel TablesSpec SourceModel.
From Verif Require RbacModel WebhookModel.
Import ListNotations.
Open Scope string_scope.
Open Scope list_scope.

Definition events (f : file) : list event := walk true (f_node f).

(** What go/parser gives *)
Definition parsed_file (f : file) : Prop := h_kind (f_root f) = KFile /\ well_formed (f_groups f) (events f).

(** The places for the markers of a package: below everything; in the Godoc of the package; above something at the top
    level, but not its Godoc; or as the closest comment above a declaration or a type, again not as its Godoc. *)
Definition at_package (f : file) (g : group) : Prop :=
  match next (events f) g with
  | None => True
  | Some (Leave _) => False
  | Some (Enter top h) =>
      if is_doc h g then h_kind h = KFile
      else (top = true /\ In g (farther (f_groups f) (events f) h)) \/
           (In g (closest (f_groups f) (events f) h) /\
            match h_kind h with KFile | KDecl _ _ | KType => True | KOther => top = true | KField => False end)
  end.

(** A comment of the package, at such a place *)
Definition package_comment (p : package) (c : comment) : Prop :=
  exists f g, In f p /\ In g (f_groups f) /\ In c (g_list g) /\ at_package f g.

(** The comment is the marker text *)
Definition comment_is (c : comment) (text : string) : Prop := comment_of (mkMarker c false) text.

Section Asks.
  Variable fval : string -> option Q.
  Variable json_read : string -> option json.

  (** A comment of the package says that the marker n of kind k has the value v *)
  Definition asks (p : package) (k : kind) (n : string) (v : tvalue) : Prop :=
    exists c text, package_comment p c /\ comment_is c text /\ says fval json_read k n text v.

  (** All comments of the package with this name are well written *)
  Definition well_written (p : package) (k : kind) (n : string) : Prop :=
    forall c text, package_comment p c -> comment_is c text -> has_name n text -> exists v, says fval json_read k n text v.

  (** What the comments of some packages ask for, as permissions *)
  Definition rule_asked (ps : list package) (r : RbacModel.rule) : Prop := exists p, In p ps /\ asks p TRule "kubebuilder:rbac" (TvRule r).
  Definition hook_asked (ps : list package) (h : WebhookModel.hook) : Prop := exists p, In p ps /\ asks p TConfig "kubebuilder:webhook" (TvHook h).
End Asks.

(** The comments of a node: of the closest group above it, and of its Godoc *)
Definition node_comment (f : file) (h : header) (c : comment) : Prop :=
  exists g, In c (g_list g) /\ (In g (closest (f_groups f) (events f) h) \/ In g (docs (f_groups f) (events f) h)).
(** The comments of a type, after some calls: also those of its declaration, if that has no parentheses *)
Definition type_comment (f : file) (before : list event) (h : header) (c : comment) : Prop :=
  node_comment f h c \/ exists d, open_decl before = Some d /\ node_comment f d c.
(** No node is in two files *)
Definition distinct_nodes (p : package) : Prop := NoDup (flat_map (fun f => entered (events f)) p).
