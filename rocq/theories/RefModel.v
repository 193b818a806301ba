(** * Model of $ref links (pkg/crd/schema.go, pkg/crd/flatten.go). Definitions only. *)

From Coq Require Import List String Ascii Bool.
From Verif Require Import GoLib.
Import ListNotations.
Open Scope string_scope.

(** pkg/crd/schema.go, defPrefix. *)
Definition def_prefix : string := "#/definitions/".

(** Go strings.ReplaceAll(s, "ab", by) for two different bytes a and b, used at pkg/crd/flatten.go:297-298. *)
Fixpoint replace2 (a b : ascii) (by_ : string) (s : string) : string :=
  match s with
  | EmptyString => EmptyString
  | String x s' =>
      match s' with
      | String y s'' =>
          if Ascii.eqb x a && Ascii.eqb y b then (by_ ++ replace2 a b by_ s'')%string
          else String x (replace2 a b by_ s')
      | EmptyString => String x EmptyString
      end
  end.

(** Go strings.SplitN(s, c, 2): cut at the first c. Called at pkg/crd/flatten.go:299. *)
Fixpoint cut (c : ascii) (s : string) : string * option string :=
  match s with
  | EmptyString => ("", None)
  | String x s' => if Ascii.eqb x c then ("", Some s') else let (h, t) := cut c s' in (String x h, t)
  end.

(** pkg/crd/schema.go:247-252, qualifiedName. *)
Definition qualified_name (pkg typ : string) : string :=
  if String.eqb pkg "" then typ else (replace_char "/" "~1" pkg ++ "~0" ++ typ)%string.

(** pkg/crd/schema.go:255-257, TypeRefLink. *)
Definition type_ref_link (pkg typ : string) : string := (def_prefix ++ qualified_name pkg typ)%string.

(** pkg/crd/flatten.go:291-307, RefParts: (type, package); None is the error. *)
Definition ref_parts (ref : string) : option (string * string) :=
  if has_prefix def_prefix ref then
    let r := replace2 "~" "0" "~" (replace2 "~" "1" "/" (str_drop (String.length def_prefix) ref)) in
    match cut "~" r with
    | (t, None) => Some (t, "")
    | (p, Some t) => Some (t, p)
    end
  else None.

(** A package is a value of an arbitrary type; [imports] is loader.Package.Imports(), a map from import path to
    package, in which an absent key gives nil. *)
Section Ident.
  Variable pkg : Type.
  (** pkg/crd/flatten.go:311-330, identFromRef: (package or nil, type name). *)
  Definition ident_from_ref (imports : list (string * pkg)) (ctx : pkg) (ref : string) : option (option pkg * string) :=
    match ref_parts ref with
    | None => None
    | Some (t, p) => if String.eqb p "" then Some (Some ctx, t) else Some (mget String.eqb imports p, t)
    end.
End Ident.
