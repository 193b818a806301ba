(** * The schemas of known types: pkg/crd/known_types.go. Definitions only. *)

From Coq Require Import List String Bool.
From Verif Require Import GoLib SchemaModel ErrorsModel IndexModel.
Import ListNotations.
Open Scope string_scope.
Open Scope list_scope.

(** The pattern of pkg/crd/known_types.go:60 *)
Definition quantity_pattern : string :=
  "^(\+|-)?(([0-9]+(\.[0-9]*)?)|(\.[0-9]+))(([KMGTPE]i)|[numkMGTPE]|([eE](\+|-)?(([0-9]+(\.[0-9]*)?)|(\.[0-9]+))))?$".

(** {Type: t}, pkg/crd/known_types.go:29-31 *)
Definition of_type (t : string) : schema := set_type schema0 t.
(** pkg/crd/known_types.go:32-35 *)
Definition date_time : schema := set_format (of_type "string") "date-time".
(** pkg/crd/known_types.go:84-89 *)
Definition int_or_string : schema := set_anyOf (with_kw schema0 (set_k_x_int_or_string kw0 true)) [of_type "integer"; of_type "string"].
(** pkg/crd/known_types.go:53-61 *)
Definition quantity : schema := with_kw int_or_string (set_k_pattern (s_kw int_or_string) quantity_pattern).
(** pkg/crd/known_types.go:66-70 and 93-95 *)
Definition preserving (s : schema) : schema := with_kw s (set_k_x_preserve (s_kw s) (Some true)).

(** KnownPackages, pkg/crd/known_types.go:27-104 *)
Definition known_packages : list (string * override schema) :=
  [("k8s.io/apimachinery/pkg/apis/meta/v1",
    mkOverride _ [("ObjectMeta", of_type "object"); ("Time", date_time); ("MicroTime", date_time); ("Duration", of_type "string");
                  ("Fields", set_addl (of_type "object") (Some (true, None)))] true []);
   ("k8s.io/apimachinery/pkg/api/resource", mkOverride _ [("Quantity", quantity)] false []);
   ("k8s.io/apimachinery/pkg/runtime", mkOverride _ [("RawExtension", preserving (of_type "object"))] true []);
   ("k8s.io/apimachinery/pkg/apis/meta/v1/unstructured", mkOverride _ [("Unstructured", of_type "object")] true []);
   ("k8s.io/apimachinery/pkg/util/intstr", mkOverride _ [("IntOrString", int_or_string)] false []);
   ("k8s.io/apiextensions-apiserver/pkg/apis/apiextensions/v1beta1", mkOverride _ [("JSON", preserving schema0)] true []);
   ("k8s.io/apiextensions-apiserver/pkg/apis/apiextensions/v1", mkOverride _ [("JSON", preserving schema0)] true [])].

(** pkg/crd/known_types.go:116-160 *)
Definition object_meta : schema :=
  set_props (of_type "object")
    [("name", of_type "string"); ("namespace", of_type "string");
     ("annotations", set_addl (of_type "object") (Some (false, Some (of_type "string"))));
     ("labels", set_addl (of_type "object") (Some (false, Some (of_type "string"))));
     ("finalizers", set_items (of_type "array") (Some (Some (of_type "string"), [])))].

(** ObjectMetaPackages, pkg/crd/known_types.go:107-163: what KnownPackages has, then the schema of ObjectMeta *)
Definition object_meta_packages : list (string * override schema) :=
  map (fun x => (fst x, mkOverride _ (o_before _ (snd x)) (o_add _ (snd x)) (o_after _ (snd x) ++ [("ObjectMeta", object_meta)])))
    (filter (fun x => String.eqb (fst x) "k8s.io/apimachinery/pkg/apis/meta/v1") known_packages).

(** AddKnownTypes, pkg/crd/known_types.go:166-179; whether GenerateEmbeddedObjectMeta *)
Definition add_known_types (embedded : bool) (overrides : list (string * override schema)) : list (string * override schema) :=
  let o1 := fold_left (fun o x => mset String.eqb o (fst x) (snd x)) known_packages overrides in
  if embedded then fold_left (fun o x => mset String.eqb o (fst x) (snd x)) object_meta_packages o1 else o1.

(** The schemata that are set for a package, pkg/crd/parser.go:236 *)
Definition known_presets (embedded : bool) (pkg : string) : list (string * schema) :=
  match mget String.eqb (add_known_types embedded []) (non_vendor_path pkg) with
  | Some o => fold_left (fun m x => mset String.eqb m (fst x) (snd x)) (o_before _ o ++ o_after _ o) []
  | None => []
  end.
