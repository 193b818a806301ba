(** * What the schema patcher should do with a directory of manifests (C63) *)
From Coq Require Import List String Ascii Bool.
From Verif Require Import GoLib YamlModel CrdSpec.
Import ListNotations.
Open Scope string_scope.
Open Scope list_scope.

Section Manifests.
  Variable read : string -> option string.
  Variable type_meta : string -> option (string * string).
  Variable crd_ish : string -> option (gk * list string).
  Variable tree : string -> option node.

  Definition crd_api : string := "apiextensions.k8s.io/v1".
  (** A name that ends in .yaml *)
  Definition yaml_name (s : string) : Prop := exists stem, s = (stem ++ ".yaml")%string.
  (** The text of a file that is said to be a CRD of some version *)
  Definition says_crd (raw api : string) : Prop := api <> "" /\ type_meta raw = Some (api, "CustomResourceDefinition").
  (** A file that is a CRD: of group and kind [g], with the versions and the document given *)
  Definition manifest (name : string) (g : gk) (vers : list string) (doc : node) : Prop :=
    yaml_name name /\ exists raw, read name = Some raw /\ says_crd raw crd_api /\ crd_ish raw = Some (g, vers) /\ tree raw = Some doc.
  (** A file that cannot be read, or is a CRD of another version *)
  Definition unsupported (name : string) : Prop :=
    yaml_name name /\ (read name = None \/ exists raw api, read name = Some raw /\ says_crd raw api /\ api <> crd_api).

  (** The directory, as names with whether it is a directory. A version is listed for a group and kind if one of its manifests has it. *)
  Variable entries : list (string * bool).
  Definition listed (g : gk) (v : string) : Prop := exists name vers doc, In (name, false) entries /\ manifest name g vers doc /\ In v vers.
  (** The package that is the source of a version: [g] is a kind of the sources, the version is listed, the package is that of the group and version. *)
  Variable group_versions : list (string * (string * string)).
  Variable embedded : list ((string * string) * list string).
  Definition source (g : gk) (v p : string) : Prop := kube_kind group_versions embedded (fst g) (snd g) /\ listed g v /\ In (p, (fst g, v)) group_versions.
End Manifests.
