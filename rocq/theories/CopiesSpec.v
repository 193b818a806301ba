(** * What the comments of the sources ask of the object generator (C66)

    In terms of declarations, of the places of comments and of their texts, as in OriginSpec; of go/types, as in ObjectSpec. *)
From Coq Require Import List String Bool QArith.
From Verif Require Import GoLib SchemaModel DeepModel DeepSpec ObjectModel ObjectSpec RegistryModel CollectModel CollectSpec TablesModel TablesSpec SourceModel SourceSpec OriginModel OriginSpec.
Import ListNotations.
Open Scope string_scope.
Open Scope list_scope.

(** The places of comments for the package, for markers that are also for types: at the end, the Godoc of the package, groups that are not the
    closest at top level; and the closest group above anything at top level but types: a declaration of a single type is one. *)
Definition at_package_only (f : SourceModel.file) (g : group) : Prop :=
  match next (events f) g with
  | None => True
  | Some (Leave _) => False
  | Some (Enter top h) =>
      if is_doc h g then h_kind h = KFile
      else (top = true /\ In g (farther (f_groups f) (events f) h)) \/
           (In g (closest (f_groups f) (events f) h) /\
            match h_kind h with KFile => True | KDecl paren typ => paren = true \/ typ = false | KOther => top = true | KType | KField => False end)
  end.
(** A comment of the package, at such a place *)
Definition package_only_comment (p : SourceModel.package) (c : CollectModel.comment) : Prop :=
  exists f g, In f p /\ In g (f_groups f) /\ In c (g_list g) /\ at_package_only f g.

Section Said.
  Variable fval : string -> option Q.
  Variable json_read : string -> option json.
  Variable gs : list generator.
  Notation said := (said fval json_read gs).
  Notation all_said := (all_said fval json_read gs).

  (** The comments at the package, at a type, say that a marker has a value. *)
  Definition package_says (gp : gpackage) (n : string) (v : tvalue) : Prop := said (package_only_comment (gp_files gp)) DescribesPackage n v.
  Definition type_says (gp : gpackage) (d : tdecl) (n : string) (v : tvalue) : Prop := said (spec_comment gp (td_node d)) DescribesType n v.

  (** The type is to be a runtime.Object. *)
  Definition object_wanted (gp : gpackage) (d : tdecl) : Prop :=
    type_says gp d "kubebuilder:object:root" (TvBool true) \/
    ((forall u, ~ type_says gp d "kubebuilder:object:root" u) /\ type_says gp d "k8s:deepcopy-gen:interfaces" (TvText "k8s.io/apimachinery/pkg/runtime.Object")).
  (** All types of the package are wanted. *)
  Definition package_wanted (gp : gpackage) : Prop :=
    package_says gp "kubebuilder:object:generate" (TvBool true) \/
    ((forall u, ~ package_says gp "kubebuilder:object:generate" u) /\ exists s, package_says gp "k8s:deepcopy-gen" (TvRaw s) /\ (s = "package" \/ exists r, s = ("package," ++ r)%string)).
  (** The type is wanted: by itself or, if it says nothing, by the package or as an object. *)
  Definition type_wanted (gp : gpackage) (d : tdecl) : Prop :=
    type_says gp d "kubebuilder:object:generate" (TvBool true) \/
    ((forall u, ~ type_says gp d "kubebuilder:object:generate" u) /\ type_says gp d "k8s:deepcopy-gen" (TvRaw "true")) \/
    ((forall u, ~ type_says gp d "kubebuilder:object:generate" u) /\ (forall u, ~ type_says gp d "k8s:deepcopy-gen" u) /\ (package_wanted gp \/ object_wanted gp d)).

  (** Comments at one place agree. *)
  Definition agree (comments : CollectModel.comment -> Prop) (t : target) : Prop :=
    forall n u v, In n ["kubebuilder:object:generate"; "kubebuilder:object:root"; "k8s:deepcopy-gen"] -> said comments t n u -> said comments t n v -> u = v.
  (** The comments of a package, and at its types, say something, and agree. *)
  Record clear_comments (gp : gpackage) : Prop := {
    cl_package : all_said (package_only_comment (gp_files gp)) DescribesPackage;
    cl_types : forall d, In d (gp_decls gp) -> all_said (spec_comment gp (td_node d)) DescribesType;
    cl_agree : agree (package_only_comment (gp_files gp)) DescribesPackage;
    cl_types_agree : forall d, In d (gp_decls gp) -> agree (spec_comment gp (td_node d)) DescribesType }.

  (** Methods are due for a type; it has not all of them; the methods that it gets. *)
  Section Types.
    Variable decls : string -> decl.
    Variable exported : string -> bool.
    Variable known_as : string -> ObjectModel.type_of.
    Definition copy_due (gp : gpackage) (d : tdecl) : Prop := type_wanted gp d /\ exported (td_name d) = true /\ known_as (td_name d) = Defined /\ copyable decls (td_name d).
    Definition incomplete (d : tdecl) : Prop := d_copy (decls (td_name d)) = None \/ d_into (decls (td_name d)) = false.
    Record supplied (gp : gpackage) (d : tdecl) (m : ObjectModel.written) : Prop := {
      su_into : w_into m <> None <-> d_into (decls (td_name d)) = false;
      su_copy : w_copy m <> None <-> d_copy (decls (td_name d)) = None;
      su_object : w_object m <> None <-> object_wanted gp d /\ d_copy (decls (td_name d)) = None }.
  End Types.
End Said.
