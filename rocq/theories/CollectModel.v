(** * Which node a marker comment belongs to

    Model of pkg/markers/collect.go, and of PackageMarkers, pkg/markers/zip.go:122-137.

    An AST is a tree: of a node are kept its identity (the pointer), its kind, Pos and End, and the positions of the
    comment groups that associatedCommentsFor (collect.go:395-420) returns for it. The children are those ast.Walk
    visits, in its order; comment groups and comments are among them. A comment is its identity and its text.

    A Go panic is None. The lock and the cache of MarkersInPackage (collect.go:75-96) are not modelled. *)

From Coq Require Import List String Ascii Bool Arith.
From Verif Require Import GoLib RegistryModel DocModel.
Import ListNotations.
Open Scope nat_scope.
Open Scope string_scope.
Open Scope list_scope.

(** go/ast: the nodes that Visit tells apart, collect.go:350-385. [KDecl paren typ]: a GenDecl, with a parenthesis, of
    types. *)
Inductive kind := KFile | KDecl (paren typ : bool) | KType | KField | KOther.

(** go/ast: what pkg/markers/collect.go:258-393 reads of a node *)
Record header := mkHeader { h_id : nat; h_kind : kind; h_pos : nat; h_end : nat; h_doc : option nat; h_trail : option nat }.
(** go/ast: the tree that ast.Walk goes over, pkg/markers/collect.go:153-158 *)
Inductive node := Node (h : header) (children : list node).

(** go/ast: Comment and CommentGroup *)
Record comment := mkComment { c_id : nat; c_text : string }.
(** go/ast: CommentGroup, pkg/markers/collect.go:241-256 *)
Record group := mkGroup { g_pos : nat; g_list : list comment }.

(** collect.go:203-206 *)
Record marker := mkMarker { m_comment : comment; m_godoc : bool }.
(** collect.go:211-213 *)
Definition marker_text (m : marker) : string := trim_space (str_drop 2 (c_text (m_comment m))).

(** The calls of Visit that ast.Walk makes, in order: Visit always returns a visitor, so that all children are visited.
    [Enter top h]: Visit(node), where [top] is the visitor's collectPackageLevel: it is set for the file (:149) and for
    what the file's visitor gets (:378), not otherwise (:344). [Leave h]: Visit(nil) on the node's own visitor. *)
Inductive event := Enter (top : bool) (h : header) | Leave (h : header).

(** The *ast.File case, pkg/markers/collect.go:258-270 *)
Definition is_file (h : header) : bool := match h_kind h with KFile => true | _ => false end.

(** go/ast: Walk *)
Fixpoint walk (top : bool) (n : node) : list event :=
  match n with
  | Node h cs => Enter top h :: flat_map (walk (is_file h)) cs ++ [Leave h]
  end.

(** collect.go:216-225. [s_ind]: commentInd; [s_nodes]: nodeMarkers by node. *)
Record state := mkState { s_ind : nat; s_decl : list marker; s_last : option nat; s_pkg : list marker; s_nodes : list (nat * list marker) }.

Section Visit.
Variable all : list group.

(** collect.go:241-256 *)
Definition markers_in (godoc : bool) (g : group) : list marker :=
  map (fun c => mkMarker c godoc) (filter (fun c => is_marker_comment (c_text c)) (g_list g)).
(** pkg/markers/collect.go:241-256 *)
Definition markers_between (godoc : bool) (start fin : nat) : list marker :=
  flat_map (markers_in godoc) (firstn (fin - start) (skipn start all)).

(** collect.go:274-284 and 306-314: the first group from [i] on that is not before [p] *)
Fixpoint count_before (p : nat) (l : list group) : nat :=
  match l with
  | g :: l' => if Nat.ltb (g_pos g) p then S (count_before p l') else 0
  | [] => 0
  end.
(** pkg/markers/collect.go:274-284 *)
Definition first_from (i p : nat) : nat := i + count_before p (skipn i all).

(** pkg/markers/collect.go:296 and :325: is the group at this index that of p? *)
Definition at_pos (i : nat) (p : option nat) : bool :=
  match nth_error all i, p with Some g, Some q => Nat.eqb (g_pos g) q | _, _ => false end.

(** pkg/markers/collect.go:350-379: nodeMarkers[node] = append(nodeMarkers[node], ...) *)
Definition append (m : list (nat * list marker)) (id : nat) (l : list marker) : list (nat * list marker) :=
  mset Nat.eqb m id (match mget Nat.eqb m id with Some old => old | None => [] end ++ l).

(** collect.go:350-385, then :388 *)
Definition associate (top : bool) (h : header) (block doc : list marker) (s : state) : state :=
  match h_kind h with
  | KDecl paren typ =>
      if paren || negb typ then mkState (s_ind s) (s_decl s) (s_last s) (s_pkg s ++ block) (s_nodes s)
      else mkState (s_ind s) (s_decl s ++ block ++ doc) (s_last s) (s_pkg s) (s_nodes s)
  | KType => mkState (s_ind s) [] (s_last s) (s_pkg s) (append (s_nodes s) (h_id h) (s_decl s ++ block ++ doc))
  | KField => mkState (s_ind s) (s_decl s) (s_last s) (s_pkg s) (append (s_nodes s) (h_id h) (block ++ doc))
  | KFile => mkState (s_ind s) (s_decl s) (s_last s) (s_pkg s ++ block ++ doc) (s_nodes s)
  | KOther => mkState (s_ind s) (s_decl s) (s_last s) (s_pkg s ++ (if top then block else [])) (s_nodes s)
  end.

(** Assignment to commentInd, pkg/markers/collect.go:284 *)
Definition with_ind (s : state) (i : nat) : state := mkState i (s_decl s) (s_last s) (s_pkg s) (s_nodes s).

(** collect.go:266-391. Here [fin] is lastCommentInd+1 and [m] is markerCommentInd+1. *)
Definition visit (e : event) (s : state) : option state :=
  match e with
  | Leave h =>                                              (* :267-289 *)
      if is_file h then Some s
      else if Nat.ltb (s_ind s) (List.length all) then Some (with_ind s (first_from (s_ind s) (h_end h)))
      else Some s
  | Enter top h =>
      (* :294-296 *)
      let ind := match s_last s with
                 | Some _ => if Nat.ltb (s_ind s) (List.length all) && at_pos (s_ind s) (s_last s) then S (s_ind s) else s_ind s
                 | None => s_ind s
                 end in
      if Nat.ltb ind (List.length all) then
        let fin := first_from ind (h_pos h) in              (* :306-315 *)
        match h_doc h, fin with
        | Some _, 0 => None                                 (* :323, allComments[-1] *)
        | _, _ =>
            let m := if at_pos (fin - 1) (h_doc h) then fin - 1 else fin in   (* :322-325 *)
            let free := if Nat.ltb ind m then top else false in
            let s1 := mkState ind (s_decl s) (h_trail h)
                        (s_pkg s ++ (if free then markers_between false ind (m - 1) else [])) (s_nodes s) in
            let block := if Nat.ltb ind m then markers_between false (m - 1) m else [] in
            Some (with_ind (associate top h block (markers_between true m fin) s1) fin)
        end
      else Some (with_ind (associate top h [] [] s) (S ind))
  end.

Fixpoint visits (es : list event) (s : state) : option state :=
  match es with
  | [] => Some s
  | e :: es' => match visit e s with Some s' => visits es' s' | None => None end
  end.
End Visit.

(** The visitor as made in pkg/markers/collect.go:147-152 *)
Definition no_state : state := mkState 0 [] None [] [].

Section Collect.
Variable A : Type.
Variable reg : registry A.
(** The order of the iteration over nodeMarkers, collect.go:162. *)
Variable order : list (nat * list marker) -> list (nat * list marker).

(** collect.go:169-191: stays with the type *)
Definition stays (m : marker) : bool :=
  m_godoc m ||
  match lookup A reg (marker_text m) DescribesType with
  | Some _ => true
  | None => match lookup A reg (marker_text m) DescribesPackage with Some _ => false | None => true end
  end.

(** The type specs of the tree. The keys of nodeMarkers that are type specs, pkg/markers/collect.go:162-167. *)
Definition is_type_event (id : nat) (e : event) : bool :=
  match e with Enter _ h => match h_kind h with KType => Nat.eqb (h_id h) id | _ => false end | Leave _ => false end.

(** collect.go:162-194 *)
Fixpoint reassociate (types : nat -> bool) (l : list (nat * list marker)) (nodes : list (nat * list marker)) (pkg : list marker)
    : list (nat * list marker) * list marker :=
  match l with
  | [] => (nodes, pkg)
  | (id, ms) :: l' =>
      if types id
      then reassociate types l' (mset Nat.eqb nodes id (filter stays ms)) (pkg ++ filter (fun m => negb (stays m)) ms)
      else reassociate types l' nodes pkg
  end.

(** associateFileMarkers, collect.go:146-198. [file] is the root of the tree. *)
Definition file_markers (all : list group) (file : node) : option (list (nat * list marker)) :=
  match file with
  | Node h _ =>
      let es := walk true file in
      match visits all es no_state with
      | None => None
      | Some s =>
          let pkg := s_pkg s ++ markers_between all false (s_ind s) (List.length all) in
          let (nodes, pkg') := reassociate (fun id => existsb (is_type_event id) es) (order (s_nodes s)) (s_nodes s) pkg in
          Some (mset Nat.eqb nodes (h_id h) pkg')
      end
  end.

(** ** Values *)
Variable V : Type.
Variable parse : def A -> string -> option V.

(** collect.go:112-126, for one node *)
Fixpoint values (t : target) (ms : list marker) (vals : list (string * list V)) (errs : list comment) : list (string * list V) * list comment :=
  match ms with
  | [] => (vals, errs)
  | m :: ms' =>
      match lookup A reg (marker_text m) t with
      | None => values t ms' vals errs
      | Some d =>
          match parse d (marker_text m) with
          | None => values t ms' vals (errs ++ [m_comment m])
          | Some v => values t ms' (mset String.eqb vals (d_name d) (match mget String.eqb vals (d_name d) with Some l => l | None => [] end ++ [v])) errs
          end
      end
  end.

(** zip.go:128-134; [files]: the markers of each file's node *)
Fixpoint package_values (vorder : list (string * list V) -> list (string * list V)) (files : list (list (string * list V))) (res : list (string * list V)) : list (string * list V) :=
  match files with
  | [] => res
  | f :: files' =>
      package_values vorder files'
        (fold_left (fun m kv => mset String.eqb m (fst kv) (match mget String.eqb m (fst kv) with Some l => l | None => [] end ++ snd kv)) (vorder f) res)
  end.
End Collect.
