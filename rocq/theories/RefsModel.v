(** * The packages that the types of a package refer to

    Model of mapImports, referenceSet, referenceCollector and allReferencedPackages, pkg/loader/refs.go:38-177; of
    isNodeInteresting, refs.go:218-231; and of the filters of the generators, pkg/crd/gen.go:340-355,
    pkg/deepcopy/gen.go:61-67, pkg/genall/genall.go:50-60.

    A package is known by its ID.  An expression is a tree of nodes, of which there is known what the code looks at; of a file
    there are the import specs and the types that EachType (C45) calls back with for it.  The calls of AddError are a list.
    [unquote] is strconv.Unquote. *)

From Coq Require Import String List Bool Arith.
Import ListNotations.
From Verif Require Import GoLib.
Open Scope string_scope.
Open Scope nat_scope.
Open Scope list_scope.

(** go/ast: nodes.  [KField]: has the tag a value for "json" (ParseAstTag(node.Tag).Lookup). *)
Inductive kind := KIdent (name : string) | KSelector | KInterface | KStruct | KField (json : bool) | KNode.
(** Of a SelectorExpr, the first child is X. go/ast: the tree that pkg/loader/refs.go:100-142 walks. *)
Inductive expr := Node (k : kind) (cs : list expr).

(** go/ast: ImportSpec. *)
Record spec := mkSpec { s_name : option string; s_path : string }.
(** go/ast: File; pkg/loader/refs.go:48-77 and :145-166 *)
Record source := mkSource { f_imports : list spec; f_types : list expr }.
(** Of an imported Package. What pkg/loader/refs.go:38-77 reads of a Package. *)
Record package := mkPackage { p_id : string; p_name : string }.

(** The errors of pkg/loader/refs.go:48-142 *)
Inductive rerr := EUnquote | ENoPackage (path : string) | EUnimported (name : string).

(** importsMap, refs.go:38-44 *)
Record imap := mkImap { dot : list (string * package); by_name : list (string * package) }.

Section Refs.
Variable unquote : string -> option string.

(** mapImports, refs.go:48-77: the loop's body, *)
Definition map_import (pkgs : list (string * package)) (m : imap) (s : spec) : imap + rerr :=
  match unquote (s_path s) with
  | None => inr EUnquote
  | Some path =>
      match mget String.eqb pkgs path with
      | None => inr (ENoPackage path)
      | Some p =>
          inl (match s_name s with
               | None => mkImap (dot m) (mset String.eqb (by_name m) (p_name p) p)
               | Some n =>
                   if String.eqb n "." then mkImap (mset String.eqb (dot m) (p_id p) p) (by_name m)
                   else mkImap (dot m) (mset String.eqb (by_name m) n p)
               end)
      end
  end.
(** and the loop. pkg/loader/refs.go:48-77. *)
Fixpoint map_imports (pkgs : list (string * package)) (specs : list spec) (m : imap) : imap + rerr :=
  match specs with
  | [] => inl m
  | s :: specs' =>
      match map_import pkgs m s with
      | inl m' => map_imports pkgs specs' m'
      | inr e => inr e
      end
  end.

(** The set externalRefs, refs.go:86, and the errors added. *)
Record rstate := mkR { refs : list (string * package); rerrs : list rerr }.

(** external, refs.go:110-117 *)
Definition external (m : imap) (name : string) (st : rstate) : rstate :=
  match mget String.eqb (by_name m) name with
  | None => mkR (refs st) (rerrs st ++ [EUnimported name])
  | Some p => mkR (mset String.eqb (refs st) (p_id p) p) (rerrs st)
  end.

(** referenceCollector.Visit, refs.go:126-146, under ast.Walk. *)
Fixpoint collect (filter : kind -> bool) (m : imap) (e : expr) (st : rstate) : rstate :=
  match e with
  | Node k cs =>
      if negb (filter k) then st
      else
        let children :=
          (fix children (cs : list expr) (st : rstate) : rstate :=
             match cs with
             | [] => st
             | c :: cs' => children cs' (collect filter m c st)
             end) in
        match k with
        | KIdent _ => st
        | KSelector =>
            match cs with
            | Node (KIdent x) _ :: _ => external m x st
            | _ => children cs st
            end
        | _ => children cs st
        end
  end.

(** refs.go:165-168: the types of one file. *)
Definition collect_file (filter : kind -> bool) (m : imap) (types : list expr) (errs : list rerr) : rstate :=
  fold_left (fun st t => collect filter m t st) types (mkR [] errs).

(** refs.go:150-163: the imports of all files, or the first error. *)
Fixpoint all_imports (pkgs : list (string * package)) (files : list source) : list imap + rerr :=
  match files with
  | [] => inl []
  | f :: files' =>
      match map_imports pkgs (f_imports f) (mkImap [] []) with
      | inr e => inr e
      | inl m => match all_imports pkgs files' with inl ms => inl (m :: ms) | inr e => inr e end
      end
  end.

(** refs.go:165-168: the types of all files, in the order of EachType. *)
Fixpoint collect_all (filter : kind -> bool) (fms : list (source * imap)) (errs : list rerr) : list (imap * rstate) * list rerr :=
  match fms with
  | [] => ([], errs)
  | (f, m) :: fms' =>
      let st := collect_file filter m (f_types f) errs in
      let '(r, es) := collect_all filter fms' (rerrs st) in
      ((m, st) :: r, es)
  end.

(** refs.go:170-177: the packages of one file, added to the set. *)
Definition add_all (ps : list (string * package)) (acc : list (string * package)) : list (string * package) :=
  fold_left (fun a kp => mset String.eqb a (p_id (snd kp)) (snd kp)) ps acc.

(** allReferencedPackages, refs.go:149-184.  [order], [sets]: the orders of iteration over refsByFile and allPackages; those
    over dotImports and externalRefs do not show in the set that results. *)
Definition all_referenced (order : list (imap * rstate) -> list (imap * rstate))
    (sets : list (string * package) -> list (string * package))
    (filter : kind -> bool) (pkgs : list (string * package)) (files : list source) : list package * list rerr :=
  match all_imports pkgs files with
  | inr e => ([], [e])
  | inl ms =>
      let '(r, es) := collect_all filter (combine files ms) [] in
      let all := fold_left (fun a mr => add_all (refs (snd mr)) (add_all (dot (fst mr)) a)) (order r) [] in
      (map snd (sets all), es)
  end.
End Refs.

(** filterTypesForCRDs, pkg/crd/gen.go:340-355 *)
Definition crd_filter (k : kind) : bool :=
  match k with KInterface => false | KField json => json | _ => true end.
(** CheckFilter, pkg/deepcopy/gen.go:61-67 *)
Definition object_filter (k : kind) : bool := match k with KInterface => false | _ => true end.

(** isNodeInteresting, refs.go:218-231; the filters of the generators that have one, pkg/genall/genall.go:50-60. *)
Definition interesting (filters : list (kind -> bool)) (k : kind) : bool :=
  match filters with [] => true | _ => existsb (fun f => f k) filters end.
(** pkg/genall/genall.go:50-60 *)
Definition check_filters (gens : list (option (kind -> bool))) : list (kind -> bool) :=
  flat_map (fun g => match g with Some f => [f] | None => [] end) gens.
