(** * The object generator, for one package

    Model of pkg/deepcopy/gen.go:91-277 and of GenerateMethodsFor and shouldBeCopied, pkg/deepcopy/traverse.go:219-280,
    610-657, on top of DeepModel.v (what is written for a type) and ImportModel.v (aliases).

    Simplifications:
    - the markers of the package and of the types are given (CollectModel.v, VisitModel.v);
    - code is not text but the statements of DeepModel.v; a type in it stands for what Syntax, traverse.go:169-207, writes
      for it, and [type_names] lists the packages that Syntax asks NeedImport for, in order;
    - the header text and gofmt are left out: format.Source gets the file and, if that fails, the file is kept as it is
      (gen.go:248-257); the template of a method is its name and receiver;
    - writing to a bytes.Buffer does not fail. *)

From Coq Require Import String Ascii List Bool Arith.
Import ListNotations.
From Verif Require Import GoLib DeepModel ImportModel.
Open Scope string_scope.
Open Scope nat_scope.
Open Scope list_scope.

(** How a computation ends: with a value, in a panic, or not within the steps allowed. *)
Inductive run (A : Type) := Done (a : A) | Panics | Runs.
Arguments Done {A}. Arguments Panics {A}. Arguments Runs {A}.
(** No Go counterpart: one statement after the other, pkg/deepcopy/gen.go:199-268 *)
Definition bind {A B} (r : run A) (f : A -> run B) : run B :=
  match r with Done a => f a | Panics => Panics | Runs => Runs end.

(** ** Markers *)

(** The values of the markers of interest, gen.go:43-51: bool, RawArguments, string; others. *)
Inductive mval := VBool (b : bool) | VRaw (s : string) | VText (s : string) | VAny.
(** MarkerValues, pkg/markers/collect.go:40 *)
Definition mvals := list (string * list mval).

(** Get, pkg/markers/collect.go:43-49 *)
Definition get (v : mvals) (name : string) : option mval :=
  match mget String.eqb v name with Some (x :: _) => Some x | _ => None end.

(** Type assertions, as in gen.go:98, 102, 113, 117, 126; they panic. *)
Definition as_bool (v : mval) : run bool := match v with VBool b => Done b | _ => Panics end.
(** pkg/deepcopy/gen.go:102 and :126 *)
Definition as_raw (v : mval) : run string := match v with VRaw s => Done s | _ => Panics end.

(** gen.go:44-50 *)
Definition generate_name := "kubebuilder:object:generate".
(** pkg/deepcopy/gen.go:45 *)
Definition root_name := "kubebuilder:object:root".
(** pkg/deepcopy/gen.go:44-50 *)
Definition legacy_name := "k8s:deepcopy-gen".
(** pkg/deepcopy/gen.go:44-50 *)
Definition interfaces_name := "k8s:deepcopy-gen:interfaces".
(** gen.go:39 *)
Definition runtime_object := "k8s.io/apimachinery/pkg/runtime.Object".
(** traverse.go:272 *)
Definition runtime_path : word := w "k8s.io/apimachinery/pkg/runtime".

(** enabledOnPackage, gen.go:91-109; the error is left to the caller. *)
Definition enabled_on_package (v : mvals) : run bool :=
  match get v generate_name with
  | Some x => as_bool x
  | None =>
      match get v legacy_name with
      | Some x => bind (as_raw x) (fun s => Done (String.eqb (hd "" (split_char ","%char s)) "package"))
      | None => Done false
      end
  end.

(** genObjectInterface, gen.go:123-135 *)
Definition object_interface (v : mvals) : run bool :=
  match get v root_name with
  | Some x => as_bool x
  | None =>
      Done (existsb (fun x => match x with VText s => String.eqb s runtime_object | _ => false end)
              (match mget String.eqb v interfaces_name with Some l => l | None => [] end))
  end.

(** enabledOnType, gen.go:111-121; [||] does not evaluate its second operand if the first is true. *)
Definition enabled_on_type (all : bool) (v : mvals) : run bool :=
  match get v generate_name with
  | Some x => as_bool x
  | None =>
      match get v legacy_name with
      | Some x => bind (as_raw x) (fun s => Done (String.eqb s "true"))
      | None => if all then Done true else object_interface v
      end
  end.

(** ** Types *)

(** What root.TypesInfo.TypeOf says of the name of a declaration: types.Typ[types.Invalid]; a defined type, known by its
    name; anything else, which is nil or a types.Alias. root.TypesInfo.TypeOf, pkg/deepcopy/traverse.go:615-640. *)
Inductive type_of := Unknown | Defined | NotDefined.

(** TypeInfo, of it what is used here. pkg/markers/zip.go:157-169. *)
Record info := mkInfo { i_name : string; i_marks : mvals; i_type : type_of }.

(** Where the name of a type in another declaration leads: this package, another one, or none (the types go/types predeclares,
    for which Obj().Pkg() is nil). *)
Inductive place := Local | Foreign (path : word) | Universe.

(** The errors added to the package. The calls of AddError in pkg/deepcopy/gen.go:199-268. *)
Inductive gerr := EMarkers | EUnknown (n : string) | EGen (n : string) (e : derr) | EFormat.

(** The methods written for a type: is the receiver of DeepCopyInto a pointer, and its body; that of DeepCopy;
    that of DeepCopyObject, and the alias of the package of runtime.Object. What pkg/deepcopy/traverse.go:219-277
    writes for a type. *)
Record written := mkWritten { w_into : option (bool * list stmt); w_copy : option bool; w_object : option (bool * word) }.
(** len(outBytes) > 0, pkg/deepcopy/gen.go:235-238 *)
Definition nothing (m : written) : bool :=
  match w_into m, w_copy m with None, None => match w_object m with None => true | Some _ => false end | _, _ => false end.

(** The names in a type, in the order in which Syntax comes to them, traverse.go:169-207. *)
Fixpoint type_names (t : ty) : list string :=
  match t with
  | TNamed n => [n]
  | TPtr e | TSlice e => type_names e
  | TMap k e => type_names k ++ type_names e
  | TBasic _ _ | TStruct _ | TOther _ => []
  end.

(** The types written in an expression, a statement; traverse.go:339, 378, 410, 541, 548, 559. *)
Definition expr_names (e : expr) : list string :=
  match e with ENew t | EMake t _ => type_names t | _ => [] end.
(** pkg/deepcopy/traverse.go:339, 378, 410, 541, 548 and 559 *)
Fixpoint stmt_names (s : stmt) : list string :=
  match s with
  | SSet _ e | SSetMap _ _ e | SLet _ e | SInto _ e => expr_names e
  | SVar _ t => type_names t
  | SInOut e1 e2 => expr_names e1 ++ expr_names e2
  | SIfSome _ b | SForMap _ b | SForSlice _ b | SBlock b => flat_map stmt_names b
  | SIfNil _ b1 b2 => flat_map stmt_names b1 ++ flat_map stmt_names b2
  | SCopy _ _ => []
  end.
(** pkg/deepcopy/traverse.go:339, 378, 410, 541, 548 and 559 *)
Definition body_names (b : list stmt) : list string := flat_map stmt_names b.

Section Object.
Variable decls : string -> decl.
(** ast.IsExported *)
Variable exported : string -> bool.
Variable home : string -> place.
Variable letter digit : nat -> bool.
(** Steps allowed to DeepCopyInto's generator and to NeedImport. *)
Variable steps rounds : nat.

(** shouldBeCopied, traverse.go:616-657, with what it adds to the errors. The loop of :638-650 makes one round, the type
    under a name not being a name; for a named pointer type it makes none. Methods of an interface type do not matter
    (true is the answer for any of them). *)
Definition should_be_copied (i : info) : bool * list gerr :=
  if negb (exported (i_name i)) then (false, [])
  else
    match i_type i with
    | Unknown => (false, [EUnknown (i_name i)])
    | NotDefined => (false, [])
    | Defined =>
        match d_under (decls (i_name i)) with
        | TPtr e => (has_any decls (TPtr e), [])
        | u => if has_any decls (TNamed (i_name i)) then (true, [])
               else if has_any decls u then (true, [])
               else match u with
                    | TBasic _ _ => (false, [])
                    | _ => (true, [])
                    end
        end
    end.

(** NeedImport for each of the names; traverse.go:196-206: a predeclared type has no package, and asking it for its path
    panics. *)
Fixpoint use_names (l : imports) (ns : list string) : run imports :=
  match ns with
  | [] => Done l
  | n :: ns' =>
      match home n with
      | Local => use_names l ns'
      | Universe => Panics
      | Foreign p =>
          match need_import letter digit rounds l p with
          | Some (l1, _) => use_names l1 ns'
          | None => Runs
          end
      end
  end.

(** GenerateMethodsFor, traverse.go:219-280. The type is known here (shouldBeCopied). *)
Definition generate_methods_for (i : info) (l : imports) : run (written * list gerr * imports) :=
  match gen_methods decls steps (i_name i) with
  | None => Runs
  | Some (m, es) =>
      let into := match m_into m with IntoGen p b => Some (p, b) | _ => None end in
      let es := map (EGen (i_name i)) es in
      bind (use_names l (match into with Some (_, b) => body_names b | None => [] end)) (fun l1 =>
      match m_copy m with
      | CopyGen p =>
          bind (object_interface (i_marks i)) (fun o =>
          if o then
            match need_import letter digit rounds l1 runtime_path with
            | Some (l2, a) => Done (mkWritten into (Some p) (Some (p, a)), es, l2)
            | None => Runs
            end
          else Done (mkWritten into (Some p) None, es, l1))
      | _ => Done (mkWritten into None None, es, l1)
      end)
  end.

(** byType, imports and the errors, pkg/deepcopy/gen.go:199-217 *)
Record gstate := mkG { g_types : list (string * written); g_imports : imports; g_errs : list gerr }.

(** The callback of EachType, gen.go:219-241 *)
Definition one_type (all : bool) (i : info) (s : gstate) : run gstate :=
  bind (enabled_on_type all (i_marks i)) (fun on =>
  if negb on then Done s
  else
    let '(copied, es) := should_be_copied i in
    if negb copied then Done (mkG (g_types s) (g_imports s) (g_errs s ++ es))
    else
      bind (generate_methods_for i (g_imports s)) (fun r =>
      let '(m, es, l) := r in
      Done (mkG (if nothing m then g_types s else mset String.eqb (g_types s) (i_name i) m) l (g_errs s ++ es)))).

(** The calls that EachType makes, pkg/deepcopy/gen.go:219 *)
Fixpoint all_types (all : bool) (is : list info) (s : gstate) : run gstate :=
  match is with
  | [] => Done s
  | i :: is' => bind (one_type all i s) (all_types all is')
  end.

(** What goes into the file: the import specs and the methods by type. pkg/deepcopy/gen.go:243-268. *)
Record file := mkFile { f_imports : list (option word * word); f_methods : list (string * written) }.

(** The orders of iteration over byType, gen.go:266, and byPath, traverse.go:145; the names of the packages imported by the
    root; whether the file is valid Go. *)
Variable torder : list (string * written) -> list (string * written).
Variable porder : list (word * word) -> list (word * word).
Variable name_of : word -> option word.
Variable formats : file -> bool.

(** writeMethods, gen.go:264-277 *)
Definition write_methods (m : list (string * written)) : list (string * written) :=
  flat_map (fun n => match mget String.eqb m n with Some x => [(n, x)] | None => [] end)
           (sort_strings (map fst (torder m))).

(** generateForPackage, gen.go:199-261. [root]: the package's name; [marks]: PackageMarkers; [types]: what EachType calls back
    with; None: an error. *)
Definition generate_for_package (root : word) (marks : option mvals) (types : option (list info)) : run (option file * list gerr) :=
  match marks with
  | None => Done (None, [EMarkers])
  | Some v =>
      bind (enabled_on_package v) (fun all =>
      match types with
      | None => Done (None, [EMarkers])
      | Some is =>
          bind (all_types all is (mkG [] (no_imports root) [])) (fun s =>
          match g_types s with
          | [] => Done (None, g_errs s)
          | _ =>
              let f := mkFile (import_specs name_of porder (g_imports s)) (write_methods (g_types s)) in
              Done (Some f, g_errs s ++ if formats f then [] else [EFormat])
          end)
      end)
  end.
End Object.
