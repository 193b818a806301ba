(** * The types of a package: EachType

    Model of pkg/loader/visit.go and of EachType, pkg/markers/zip.go:178-234.

    The syntax tree is a tree of nodes of any kind; of a node there is known what the code looks at. The markers of a node
    are given by the oracle [marks] (col.MarkersInPackage, which is CollectModel.v); [unquote] is strconv.Unquote. *)

From Coq Require Import List String Bool Arith.
From Verif Require Import GoLib DocModel.
Import ListNotations.
Open Scope nat_scope.
Open Scope list_scope.

(** go/ast: Field; [af_names] is empty for an embedded field (Names == nil). *)
Record afield := mkAField { af_id : nat; af_names : list string; af_doc : option (list string); af_tag : option string }.

(** go/ast: nodes. [HSpec]: a TypeSpec, with the fields of its Type if that is a StructType. *)
Inductive ahead :=
| HFile (id : nat)
| HDecl (id : nat) (paren : bool) (doc : option (list string))
| HSpec (id : nat) (name : string) (doc : option (list string)) (fields : option (list afield))
| HOther (id : nat).
(** go/ast: the tree that pkg/loader/visit.go:31-42 walks *)
Inductive anode := ANode (h : ahead) (cs : list anode).

(** typeVisitor, visit.go:45-49; the fields that change. *)
Record vstate := mkV { v_file : option ahead; v_decl : option ahead }.
(** A call of the callback, visit.go:26. *)
Record call := mkCall { c_file : option ahead; c_decl : option ahead; c_spec : ahead }.

(** Visit, visit.go:52-71: the state, the calls made, and whether a visitor is returned. *)
Definition v_visit (h : ahead) (s : vstate) : vstate * list call * bool :=
  match h with
  | HFile _ => (mkV (Some h) (v_decl s), [], true)
  | HDecl _ _ _ => (mkV (v_file s) (Some h), [], true)
  | HSpec _ _ _ _ => (s, [mkCall (v_file s) (v_decl s) h], false)
  | HOther _ => (s, [], false)
  end.
(** Visit(nil), visit.go:53-56 *)
Definition v_leave (s : vstate) : vstate := mkV (v_file s) None.

(** go/ast: Walk *)
Fixpoint v_walk (n : anode) (s : vstate) : vstate * list call :=
  match n with
  | ANode h cs =>
      let '(s1, calls, go) := v_visit h s in
      if go then
        let '(s2, more) :=
          (fix children (cs : list anode) (s : vstate) : vstate * list call :=
             match cs with
             | [] => (s, [])
             | c :: cs' =>
                 let '(s1, a) := v_walk c s in
                 let '(s2, b) := children cs' s1 in
                 (s2, a ++ b)
             end) cs s1 in
        (v_leave s2, calls ++ more)
      else (s1, calls)
  end.

(** The header of a node. No Go counterpart: the node that pkg/loader/visit.go:51-81 is called with. *)
Definition head (n : anode) : ahead := match n with ANode h _ => h end.

(** EachType, visit.go:31-42 *)
Fixpoint v_files (files : list anode) (s : vstate) : list call :=
  match files with
  | [] => []
  | f :: files' =>
      let '(s1, a) := v_walk f (mkV (Some (head f)) (v_decl s)) in a ++ v_files files' s1
  end.
(** pkg/loader/visit.go:31-42 *)
Definition raw_each_type (files : list anode) : list call := v_files files (mkV None None).

Section Zip.
Variable MV : Type.
Variable marks : nat -> MV.
Variable unquote : string -> option string.

(** FieldInfo, zip.go:140-155 *)
Record finfo := mkF { fi_name : string; fi_doc : string; fi_tag : string; fi_marks : MV; fi_raw : nat }.
(** TypeInfo, zip.go:158-178 *)
Record tinfo := mkT { ti_name : string; ti_doc : string; ti_marks : MV; ti_fields : list finfo;
                      ti_decl : option ahead; ti_spec : ahead; ti_file : option ahead }.

(** ParseAstTag, visit.go:74-83 *)
Definition parse_tag (t : option string) : string :=
  match t with
  | None => ""
  | Some t => match unquote t with Some s => s | None => "" end
  end.

(** zip.go:200-217 *)
Definition field_infos (f : afield) : list finfo :=
  let one (name : string) :=
    mkF name (extract_doc (docs_of (DField (af_doc f)))) (parse_tag (af_tag f)) (marks (af_id f)) (af_id f) in
  map one (af_names f) ++ match af_names f with [] => [one ""] | _ => [] end.

(** extractDoc(spec, decl), zip.go:30-46; None: decl is nil and used. *)
Definition type_doc (doc : option (list string)) (decl : option ahead) : option string :=
  match doc with
  | Some _ => Some (extract_doc (docs_of (DTypeSpec doc false None)))
  | None =>
      match decl with
      | Some (HDecl _ paren d) => Some (extract_doc (docs_of (DTypeSpec None paren d)))
      | _ => None
      end
  end.

(** The callback, zip.go:197-231 *)
Definition type_info (c : call) : option tinfo :=
  match c_spec c with
  | HSpec id name doc fields =>
      match type_doc doc (c_decl c) with
      | None => None
      | Some d =>
          Some (mkT name d (marks id) (match fields with Some fs => flat_map field_infos fs | None => [] end)
                    (c_decl c) (c_spec c) (c_file c))
      end
  | _ => None
  end.

(** EachType, zip.go:191-234: what the callback is called with; None: panic. *)
Definition each_type (files : list anode) : option (list tinfo) :=
  fold_right (fun c r => match type_info c, r with Some i, Some l => Some (i :: l) | _, _ => None end)
             (Some []) (raw_each_type files).
End Zip.
