(** * What the comments at a type say about the version and the names of its CRD (C65)

    In terms of the declarations and of the texts of the comments, as in OriginSpec. *)
From Coq Require Import List String Bool QArith.
From Verif Require Import GoLib SchemaModel ErrorsModel CrdModel RegistryModel CollectModel TablesModel TablesSpec SourceModel SourceSpec OriginModel OriginSpec.
Import ListNotations.
Open Scope string_scope.
Open Scope list_scope.

Section Said.
  Variable fval : string -> option Q.
  Variable json_read : string -> option json.
  Variable gs : list generator.
  Definition type_said (gp : gpackage) (d : tdecl) (n : string) (m : cval) : Prop := said fval json_read gs (spec_comment gp (td_node d)) DescribesType n (TvCrd m).

  (** A version of a CRD is as the comments at its type say; [only]: it is the only one. *)
  Record version_said (gp : gpackage) (d : tdecl) (only : Prop) (y : version) : Prop := {
    sd_skipped : v_name y <> "" -> ~ type_said gp d "kubebuilder:skipversion" CSkip;
    sd_served : v_served y = true <-> ~ type_said gp d "kubebuilder:unservedversion" CUnserved;
    sd_storage : v_storage y = true <-> only \/ (v_name y <> "" /\ type_said gp d "kubebuilder:storageversion" CStorage);
    sd_deprecated : v_deprecated y = true <-> v_name y <> "" /\ exists w, type_said gp d "kubebuilder:deprecatedversion" (CDeprecated w);
    sd_warning : forall w, v_warning y = Some w -> type_said gp d "kubebuilder:deprecatedversion" (CDeprecated (Some w));
    sd_warned : forall w, v_name y <> "" -> type_said gp d "kubebuilder:deprecatedversion" (CDeprecated w) ->
      (forall w', type_said gp d "kubebuilder:deprecatedversion" (CDeprecated w') -> w' = w) -> v_warning y = w;
    sd_status : (exists s, v_sub y = Some s /\ su_status s = true) <-> type_said gp d "kubebuilder:subresource:status" CStatus;
    sd_scale : forall s z, v_sub y = Some s -> su_scale s = Some z -> type_said gp d "kubebuilder:subresource:scale" (CScale z);
    sd_scaled : forall z, type_said gp d "kubebuilder:subresource:scale" (CScale z) -> (forall z', type_said gp d "kubebuilder:subresource:scale" (CScale z') -> z' = z) ->
      exists s, v_sub y = Some s /\ su_scale s = Some z;
    sd_columns : forall c, In c (v_columns y) <-> type_said gp d "kubebuilder:printcolumn" (CColumn c);
    sd_fields : forall p, In p (v_fields y) <-> type_said gp d "kubebuilder:selectablefield" (CSelectable p) }.
End Said.

(** The names of a CRD by a resource marker, or without one *)
Definition default_names (pluralize lower : string -> string) (kind : string) : names := mkNames (lower (pluralize kind)) (lower kind) kind (kind ++ "List") [] [] "Namespaced".
Definition resource_names (pluralize lower : string -> string) (kind : string) (r : resource) : names :=
  mkNames (if String.eqb (r_path r) "" then lower (pluralize kind) else r_path r) (if String.eqb (r_singular r) "" then lower kind else r_singular r) kind (kind ++ "List")
    (r_short r) (r_categories r) (if String.eqb (r_scope r) "" then "Namespaced" else r_scope r).
