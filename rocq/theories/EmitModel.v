(** * The schema a CRD has for a type, from the Go types on

    NeedFlattenedSchemaFor, pkg/crd/parser.go:197-209, and its use in pkg/crd/spec.go:86-104, put together from the models of
    the parser (NeedModel), of the flattener (FlattenModel) and of descriptions (DescModel). Definitions only.

    FlattenType asks the parser for every type it meets (flatten.go:249-257); NeedSchemaFor has all of them by then, as they
    were requested while the schema was made. FlattenType is modelled for one type at a time, with an empty cache: C09 says
    that the cache makes no difference. *)
From Coq Require Import List String Bool ZArith NArith.
From Verif Require Import GoLib SchemaModel RefModel MarkModel StructModel FlattenModel NeedModel DescModel.
Import ListNotations.
Open Scope string_scope.
Open Scope list_scope.

(** How the calls end: a schema with the errors of the parser, the references not found and the conflicts between types; or a
    panic. pkg/crd/parser.go:197-209. *)
Inductive eres := EDone (s : schema) (errs : list (string * perr)) (refs : list (string * string)) (conflicts : list terr) | EPanic | EFuel.

Section Emit.
  Variable order : marker_values -> marker_values.
  Variable sorted : list (string * smarker) -> list (string * smarker).
  Variable allow_dangerous ignore_unexported : bool.
  Variable imports : string -> string -> bool.
  Variable pkg_markers : string -> marker_values.
  Variable types : ident -> option tinfo.
  Variable presets : string -> list (string * schema).
  (** The iteration over the maps of a schema *)
  Variable ord : list string -> list string.
  (** unicode.STerm and unicode.White_Space *)
  Variable is_sterm is_space : N -> bool.

  (** identFromRef, pkg/crd/flatten.go:311-330. A package that is not imported is nil there and crashes the parser; making a
      schema with a reference to it has crashed before. *)
  Definition find_ref (r pkg : string) : option ident :=
    match ref_parts r with
    | None => None
    | Some (t, p) => if String.eqb p "" then Some (pkg, t) else if imports pkg p then Some (p, t) else None
    end.

  (** pkg/crd/parser.go:197-209, then the copy with short descriptions, pkg/crd/spec.go:93-97. Without a result of FlattenType
      the next call crashes. *)
  Definition emit (fuel : nat) (max_desc : option Z) (id : ident) : eres :=
    match need_all order sorted allow_dangerous ignore_unexported imports pkg_markers types presets fuel [id] (mkPS [] [] []) with
    | NDone st =>
        match flatten_type find_ref (fun i => mget ident_eqb (ps_schemata st) i) ord fuel id (mkFs [] []) with
        | Some (Some t, fs) =>
            match flatten_embedded ord fuel t with
            | Some (t', es) =>
                match max_desc with
                | None => EDone t' (ps_errs st) (fs_errs fs) es
                | Some n =>
                    match truncate_description is_sterm is_space ord fuel n t' with
                    | Some t'' => EDone t'' (ps_errs st) (fs_errs fs) es
                    | None => EFuel
                    end
                end
            | None => EFuel
            end
        | Some (None, _) => EPanic
        | None => EFuel
        end
    | NPanic => EPanic
    | NFuel => EFuel
    end.
End Emit.
