(** * The parser's packages: NeedPackage, AddPackage, indexTypes

    Model of pkg/crd/parser.go:126-158 and 215-242, and of the overrides of pkg/crd/known_types.go:27-179 with AddKnownTypes.

    Simplifications: a package is a number (a pointer) with its path, name, package markers and types given: what PackageMarkers and
    EachType return (CollectModel, VisitModel); if the markers are wrong both return the error.  An override is what those of
    known_types.go do: set some schemata, add the package or not, set further schemata. *)

From Coq Require Import String List Bool Arith.
Import ListNotations.
From Verif Require Import GoLib ErrorsModel.
Open Scope string_scope.
Open Scope list_scope.

(** A marker's value, pkg/crd/parser.go:137-145: a string or something else. *)
Inductive mval := MStr (s : string) | MOther.

(** PackageOverride, pkg/crd/parser.go:34-40: the schemata it sets before; whether it calls AddPackage; those it sets after. *)
Record override (Schema : Type) := mkOverride { o_before : list (string * Schema); o_add : bool; o_after : list (string * Schema) }.

Section Index.
Variable Info Schema : Type.
(** pkg.PkgPath and pkg.Name *)
Variable path name : nat -> string.
(** What PackageMarkers returns; [None]: an error. pkg/crd/parser.go:128 *)
Variable marks : nat -> option (list (string * list mval)).
(** What EachType calls back with, in order. pkg/crd/parser.go:147 *)
Variable decls : nat -> list (string * Info).
(** p.PackageOverrides, pkg/crd/parser.go:64-66 *)
Variable overrides : list (string * override Schema).

(** TypeIdent, pkg/crd/parser.go:29-32 *)
Definition tident := (nat * string)%type.
(** Its equality, pkg/crd/parser.go:153 *)
Definition tident_eqb (a b : tident) : bool := Nat.eqb (fst a) (fst b) && String.eqb (snd a) (snd b).

(** Parser, pkg/crd/parser.go:42-75: packages, Types, GroupVersions, Schemata; the packages that errors were added to; the
    packages that were given to the type checker. *)
Record index := mkIndex {
  i_packages : list nat; i_types : list (tident * Info); i_groups : list (nat * (string * string));
  i_schemata : list (tident * Schema); i_errors : list nat; i_checked : list nat }.

(** The fields as init makes them, pkg/crd/parser.go:97-123 *)
Definition index0 : index := mkIndex [] [] [] [] [] [].

(** MarkerValues.Get, pkg/markers/collect.go:43-49 *)
Definition get_first (ms : list (string * list mval)) (k : string) : option mval :=
  match mget String.eqb ms k with Some (v :: _) => Some v | _ => None end.

(** p.GroupVersions[pkg] = ..., pkg/crd/parser.go:135-145; [None]: the conversion to string panics. *)
Definition set_group (p : nat) (ms : list (string * list mval)) (s : index) : option index :=
  match get_first ms "groupName" with
  | None => Some s
  | Some nameVal =>
      match match get_first ms "versionName" with None => Some (name p) | Some (MStr v) => Some v | Some MOther => None end, nameVal with
      | Some version, MStr group =>
          Some (mkIndex (i_packages s) (i_types s) (mset Nat.eqb (i_groups s) p (group, version)) (i_schemata s) (i_errors s) (i_checked s))
      | _, _ => None
      end
  end.

(** pkg/crd/parser.go:148-154 *)
Definition add_type (p : nat) (s : index) (d : string * Info) : index :=
  mkIndex (i_packages s) (mset tident_eqb (i_types s) (p, fst d) (snd d)) (i_groups s) (i_schemata s) (i_errors s) (i_checked s).

(** AddError, pkg/crd/parser.go:130 and :156 *)
Definition report (p : nat) (s : index) : index :=
  mkIndex (i_packages s) (i_types s) (i_groups s) (i_schemata s) (p :: i_errors s) (i_checked s).

(** indexTypes, pkg/crd/parser.go:126-158 *)
Definition index_types (p : nat) (s : index) : option index :=
  match marks p with
  | None => Some (report p (report p s))
  | Some ms =>
      match get_first ms "kubebuilder:skip" with
      | Some _ => Some s
      | None => match set_group p ms s with Some s' => Some (fold_left (add_type p) (decls p) s') | None => None end
      end
  end.

(** p.packages[pkg], pkg/crd/parser.go:219 and :231 *)
Definition is_loaded (p : nat) (s : index) : bool := existsb (Nat.eqb p) (i_packages s).
(** pkg/crd/parser.go:224 and :238 *)
Definition set_loaded (p : nat) (s : index) : index :=
  if is_loaded p s then s else mkIndex (p :: i_packages s) (i_types s) (i_groups s) (i_schemata s) (i_errors s) (i_checked s).
(** p.Checker.Check, pkg/crd/parser.go:223 *)
Definition check (p : nat) (s : index) : index :=
  mkIndex (i_packages s) (i_types s) (i_groups s) (i_schemata s) (i_errors s) (p :: i_checked s).

(** AddPackage, pkg/crd/parser.go:217-225 *)
Definition add_package (p : nat) (s : index) : option index :=
  if is_loaded p s then Some s
  else match index_types p s with Some s' => Some (set_loaded p (check p s')) | None => None end.

(** p.Schemata[TypeIdent{...}] = ..., pkg/crd/known_types.go:29-48 *)
Definition set_schema (p : nat) (s : index) (x : string * Schema) : index :=
  mkIndex (i_packages s) (i_types s) (i_groups s) (mset tident_eqb (i_schemata s) (p, fst x) (snd x)) (i_errors s) (i_checked s).

(** An override, pkg/crd/known_types.go:28-50 and 115-163 *)
Definition run_override (o : override Schema) (p : nat) (s : index) : option index :=
  let s1 := fold_left (set_schema p) (o_before _ o) s in
  match (if o_add _ o then add_package p s1 else Some s1) with
  | Some s2 => Some (fold_left (set_schema p) (o_after _ o) s2)
  | None => None
  end.

(** NeedPackage, pkg/crd/parser.go:229-242 *)
Definition need_package (p : nat) (s : index) : option index :=
  if is_loaded p s then Some s
  else
    match mget String.eqb overrides (non_vendor_path (path p)) with
    | Some o => match run_override o p s with Some s' => Some (set_loaded p s') | None => None end
    | None => add_package p s
    end.

(** The calls that a run makes, pkg/crd/gen.go:138-140 and pkg/crd/parser.go:169; [None]: it has panicked. *)
Fixpoint need_packages (l : list nat) (s : index) : option index :=
  match l with
  | [] => Some s
  | p :: l' => match need_package p s with Some s' => need_packages l' s' | None => None end
  end.
End Index.
