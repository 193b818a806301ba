(** * Model of the parser's schema cache: NeedPackage and NeedSchemaFor of pkg/crd/parser.go, the overrides of pkg/crd/known_types.go.
    Definitions only.

    Packages are import paths. The types of a package are given: what indexTypes finds once the package is loaded
    (none for packages marked kubebuilder:skip and for overrides that do not call AddPackage). *)

From Coq Require Import List String Bool.
From Verif Require Import GoLib SchemaModel MarkModel StructModel FlattenModel.
Import ListNotations.
Open Scope string_scope.
Open Scope list_scope.

Inductive perr := PUnknown (name : string) | PGen (e : gerr).
(** Packages loaded, Schemata, and the errors added to each package. pkg/crd/parser.go:48-77. *)
Record pstate := mkPS { ps_loaded : list string; ps_schemata : list (ident * schema); ps_errs : list (string * perr) }.
(** How a call of pkg/crd/parser.go:166-195 ends *)
Inductive nres := NDone (st : pstate) | NPanic | NFuel.

Section Need.
  Variable order : marker_values -> marker_values.
  Variable sorted : list (string * smarker) -> list (string * smarker).
  Variable allow_dangerous ignore_unexported : bool.
  (** Per package: what it imports, its markers, its types, and the schemas an override sets *)
  Variable imports : string -> string -> bool.
  Variable pkg_markers : string -> marker_values.
  Variable types : ident -> option tinfo.
  Variable presets : string -> list (string * schema).

  (** p.Schemata[typ] = ..., pkg/crd/parser.go:181 and :194 *)
  Definition put (st : pstate) (id : ident) (s : schema) : pstate := mkPS (ps_loaded st) (mset ident_eqb (ps_schemata st) id s) (ps_errs st).
  (** AddError, pkg/crd/parser.go:166-195 *)
  Definition add_errs (st : pstate) (pkg : string) (es : list perr) : pstate := mkPS (ps_loaded st) (ps_schemata st) (ps_errs st ++ map (pair pkg) es).

  (** pkg/crd/parser.go:229-242, 217-225 *)
  Definition need_package (pkg : string) (st : pstate) : pstate :=
    if mem_str pkg (ps_loaded st) then st
    else
      let st' := fold_left (fun st x => put st (pkg, fst x) (snd x)) (presets pkg) st in
      mkPS (pkg :: ps_loaded st') (ps_schemata st') (ps_errs st').

  (** pkg/crd/schema.go:102-111: the package a request is for *)
  Definition target (id : ident) (req : string * string) : ident := ((if String.eqb (fst req) "" then fst id else fst req), snd req).

  (** pkg/crd/parser.go:166-195. The requests made while the schema is built are served in their order before the schema is stored;
      building it does not look at the state. *)
  Fixpoint need (fuel : nat) (id : ident) (st : pstate) : nres :=
    match fuel with
    | O => NFuel
    | S n =>
        let st1 := need_package (fst id) st in
        match mget ident_eqb (ps_schemata st1) id with
        | Some _ => NDone st1
        | None =>
            match types id with
            | None => NDone (add_errs st1 (fst id) [PUnknown (snd id)])
            | Some ti =>
                match info_to_schema order sorted (imports (fst id)) allow_dangerous ignore_unexported (pkg_markers (fst id)) ti with
                | Panic => NPanic
                | Done s reqs errs =>
                    let serve := fix serve (l : list (string * string)) (st : pstate) : nres :=
                      match l with
                      | [] => NDone st
                      | r :: l' => match need n (target id r) st with NDone st' => serve l' st' | x => x end
                      end in
                    match serve reqs (put st1 id schema0) with
                    | NDone st2 => NDone (add_errs (put st2 id s) (fst id) (map PGen errs))
                    | x => x
                    end
                end
            end
        end
    end.
  (** Several types in a row. Calls of pkg/crd/parser.go:166-195. *)
  Fixpoint need_all (fuel : nat) (ids : list ident) (st : pstate) : nres :=
    match ids with [] => NDone st | id :: ids' => match need fuel id st with NDone st' => need_all fuel ids' st' | x => x end end.
End Need.
