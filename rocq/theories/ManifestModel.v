(** * The manifests: from objects to YAML files

    Model of yamlMarshal and its transforms, pkg/genall/genall.go:122-139 and 173-206, of the transforms of the generators
    (pkg/crd/gen.go:110-125 and 172-178, pkg/rbac/parser.go:394, pkg/webhook/parser.go:610), and of the header
    (pkg/crd/gen.go:161-170, pkg/rbac/parser.go:379-387, pkg/webhook/parser.go:593-601).  Writing the file is
    GenallModel.write_yaml.

    Simplifications: json.Marshal followed by reading the text as YAML is the oracle [json], a tree; its text is not modelled.
    The keys of the tree are strings: those of JSON always are.  rawyaml.Marshal is the oracle [enc]. *)

From Coq Require Import String Ascii List Bool Arith.
Import ListNotations.
From Verif Require Import GoLib GenallModel.
Open Scope string_scope.
Open Scope list_scope.

(** What genall.go:192 reads: null, booleans, numbers and strings, []interface{}, map[interface{}]interface{}. *)
Inductive scalar := Null | Bool (b : bool) | Num (s : string) | Str (s : string).
(** See above, genall.go:186-192. *)
Inductive val := Scalar (x : scalar) | Seq (l : list val) | Map (m : list (string * val)).

(** map[string]interface{}, genall.go:186. *)
Definition object := list (string * val).

(** genall.go:123-125. *)
Definition transform := object -> outcome object.

(** TransformRemoveCreationTimestamp, genall.go:135-139.  The map below "metadata" is changed in place. *)
Definition remove_creation_timestamp : transform := fun obj =>
  match mget String.eqb obj "metadata" with
  | Some (Map metadata) => Ok (mset String.eqb obj "metadata" (Map (mdel String.eqb metadata "creationTimestamp")))
  | _ => Panic
  end.

(** transformRemoveCRDStatus, pkg/crd/gen.go:111-114. *)
Definition remove_crd_status : transform := fun obj => Ok (mdel String.eqb obj "status").

(** transformPreserveUnknownFields, pkg/crd/gen.go:117-124. *)
Definition preserve_unknown_fields (value : bool) : transform := fun obj =>
  match mget String.eqb obj "spec" with
  | Some (Map spec) => Ok (mset String.eqb obj "spec" (Map (mset String.eqb spec "preserveUnknownFields" (Scalar (Bool value)))))
  | _ => Ok obj
  end.

(** The transforms of CRDs, pkg/crd/gen.go:172-178. *)
Definition crd_transforms (preserve : option bool) : list transform :=
  [remove_crd_status; remove_creation_timestamp] ++
  match preserve with Some value => [preserve_unknown_fields value] | None => [] end.

(** The transforms of roles and webhook configurations, pkg/rbac/parser.go:394 and pkg/webhook/parser.go:610. *)
Definition other_transforms : list transform := [remove_creation_timestamp].

(** genall.go:196-202. *)
Fixpoint apply_transforms (ts : list transform) (obj : object) : outcome object :=
  match ts with
  | [] => Ok obj
  | t :: ts' => match t obj with Ok obj' => apply_transforms ts' obj' | Err => Err | Panic => Panic end
  end.

Section Marshal.
Variable Obj : Type.
Variable json : Obj -> option val.
Variable enc : object -> option string.

(** rawyaml.Unmarshal into a map[string]interface{}, genall.go:186-194: null leaves the map nil. *)
Definition unmarshal (v : val) : option object :=
  match v with
  | Map m => Some m
  | Scalar Null => Some []
  | _ => None
  end.

(** yamlMarshal and yamlJSONToYAMLWithFilter, genall.go:174-206. *)
Definition yaml_marshal (ts : list transform) (o : Obj) : outcome string :=
  match json o with
  | None => Err
  | Some j =>
      match unmarshal j with
      | None => Err
      | Some obj =>
          match apply_transforms ts obj with
          | Ok obj' => match enc obj' with Some y => Ok y | None => Err end
          | Err => Err
          | Panic => Panic
          end
      end
  end.

(** What WriteYAML gets, genall.go:157-160; after a panic nothing more is written, as after an error. *)
Definition marshal (ts : list transform) (o : Obj) : option string :=
  match yaml_marshal ts o with Ok y => Some y | _ => None end.

End Marshal.

(** Go: strings.ReplaceAll(s, old, new) for non-empty old, called at pkg/crd/gen.go:170.  Each step consumes at least one byte. *)
Fixpoint replace_fuel (fuel : nat) (old new s : string) : string :=
  match fuel with
  | O => s
  | S fuel' =>
      match s with
      | EmptyString => EmptyString
      | String a s' =>
          if has_prefix old s
          then (new ++ replace_fuel fuel' old new (str_drop (String.length old) s))%string
          else String a (replace_fuel fuel' old new s')
      end
  end.
(** As above, pkg/crd/gen.go:170. *)
Definition replace_all (old new s : string) : string := replace_fuel (String.length s) old new s.

(** The header, pkg/crd/gen.go:161-170: [None] no file was given, [Some None] it cannot be read. *)
Definition header_text (file : option (option string)) (year : string) : option string :=
  match file with
  | None => Some (replace_all " YEAR" (" " ++ year) "")
  | Some None => None
  | Some (Some text) => Some (replace_all " YEAR" (" " ++ year) text)
  end.
