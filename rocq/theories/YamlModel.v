(** * Model of pkg/schemapatcher/internal/yaml and of the patching in pkg/schemapatcher/gen.go. Definitions only.

    A gopkg.in/yaml.v3 Node is a tree. Pointers into the document are positions (child numbers from the root), so that
    assignments through them are updates of the tree. Not modelled: Line and Column, and the Alias pointer of alias nodes
    (the encoder writes an alias from its Value). Two nodes of a parsed document share no children. *)

From Coq Require Import List String Bool Arith.
From Verif Require Import GoLib.
Import ListNotations.
Open Scope string_scope.
Open Scope list_scope.

Inductive ykind := Document | Sequence | Mapping | Scalar | Alias.
(** yaml.v3: Kind, as compared in pkg/schemapatcher/internal/yaml/nested.go:28-75 *)
Definition ykind_eqb (a b : ykind) : bool :=
  match a, b with Document, Document | Sequence, Sequence | Mapping, Mapping | Scalar, Scalar | Alias, Alias => true | _, _ => false end.

(** Everything of a node but its kind and children. yaml.v3: Node, as in
    pkg/schemapatcher/internal/yaml/set.go:26-47. *)
Record yhead := mkHead { h_style : nat; h_tag : string; h_value : string; h_anchor : string;
                         h_head_comment : string; h_line_comment : string; h_foot_comment : string }.
(** The zero node, pkg/schemapatcher/internal/yaml/set.go:38-44 *)
Definition head0 : yhead := mkHead 0 "" "" "" "" "" "".
(** yaml.v3: Node, pkg/schemapatcher/internal/yaml/nested.go:28-75 *)
Inductive node := Node { n_kind : ykind; n_head : yhead; n_content : list node }.
(** node.Value, pkg/schemapatcher/internal/yaml/nested.go:28-41 *)
Definition n_value (n : node) : string := h_value (n_head n).
(** Assignment to Content, pkg/schemapatcher/internal/yaml/set.go:26-70 *)
Definition set_content (n : node) (c : list node) : node := Node (n_kind n) (n_head n) c.
(** pkg/schemapatcher/internal/yaml/nested.go:28-41 *)
Definition is_mapping (n : node) : bool := ykind_eqb (n_kind n) Mapping.

(** ** Positions. No Go counterpart: following a pointer into the document, and assigning through it;
    pkg/schemapatcher/internal/yaml/set.go:26-70. *)
Fixpoint node_at (pos : list nat) (n : node) {struct pos} : option node :=
  match pos with
  | [] => Some n
  | i :: pos' => match nth_error (n_content n) i with Some c => node_at pos' c | None => None end
  end.
(** No Go counterpart: following a pointer into the document, and assigning through it;
    pkg/schemapatcher/internal/yaml/set.go:26-70 *)
Fixpoint nth_update (i : nat) (f : node -> node) (l : list node) {struct l} : list node :=
  match l, i with
  | [], _ => []
  | x :: l', 0 => f x :: l'
  | x :: l', S i' => x :: nth_update i' f l'
  end.
(** No Go counterpart: following a pointer into the document, and assigning through it;
    pkg/schemapatcher/internal/yaml/set.go:26-70 *)
Fixpoint update_at (pos : list nat) (f : node -> node) (n : node) {struct pos} : node :=
  match pos with
  | [] => f n
  | i :: pos' => set_content n (nth_update i (update_at pos' f) (n_content n))
  end.

(** pkg/schemapatcher/internal/yaml/nested.go:28-41, the loop of ValueInMapping over key/value pairs; the result is the
    value's child number and the value. [i] is the child number of the head of [c]. *)
Fixpoint value_in (i : nat) (c : list node) (key : string) {struct c} : option (nat * node) :=
  match c with
  | k :: v :: c' => if String.eqb (n_value k) key then Some (S i, v) else value_in (S (S i)) c' key
  | _ => None
  end.

(** pkg/schemapatcher/internal/yaml/nested.go:55-71, the loop of asCloseAsPossible. None: error. *)
Fixpoint descend (cur : node) (pos : list nat) (path : list string) {struct path} : option (list nat * list string) :=
  match path with
  | [] => Some (pos, [])
  | key :: rest =>
      if negb (is_mapping cur) then None
      else match value_in 0 (n_content cur) key with
           | None => Some (pos, path)
           | Some (i, next) => descend next (pos ++ [i]) rest
           end
  end.

(** pkg/schemapatcher/internal/yaml/nested.go:45-73, asCloseAsPossible (root not nil): where it got, and what is left. *)
Definition as_close (root : node) (path : list string) : option (list nat * list string) :=
  match n_kind root, n_content root with
  | Document, c :: _ => descend c [0] path
  | _, _ => descend root [] path
  end.

(** pkg/schemapatcher/internal/yaml/nested.go:77-88, GetNode: None is an error, Some None is "not found". *)
Definition get_pos (root : node) (path : list string) : option (option (list nat)) :=
  match as_close root path with
  | None => None
  | Some (pos, []) => Some (Some pos)
  | Some (_, _ :: _) => Some None
  end.
(** pkg/schemapatcher/internal/yaml/nested.go:77-95 *)
Definition get_node (root : node) (path : list string) : option (option node) :=
  match get_pos root path with
  | None => None
  | Some None => Some None
  | Some (Some pos) => Some (node_at pos root)
  end.

(** pkg/schemapatcher/internal/yaml/set.go:38-44: new keys are double-quoted strings. DoubleQuotedStyle is 2. *)
Definition key_node (k : string) : node := Node Scalar (mkHead 2 "!!str" k "" "" "" "") [].
(** pkg/schemapatcher/internal/yaml/set.go:37-43 *)
Fixpoint nested (path : list string) (val : node) : node :=
  match path with
  | [] => val
  | k :: rest => Node Mapping head0 [key_node k; nested rest val]
  end.

(** pkg/schemapatcher/internal/yaml/set.go:26-47, SetNode. None: error (the document is unchanged then). *)
Definition set_node (root : node) (val : node) (path : list string) : option node :=
  match as_close root path with
  | None => None
  | Some (pos, []) => Some (update_at pos (fun _ => val) root)
  | Some (pos, k :: rest) =>
      match node_at pos root with
      | Some cur =>
          if negb (is_mapping cur) then None
          else Some (update_at pos (fun n => set_content n (n_content n ++ [key_node k; nested rest val])) root)
      | None => None
      end
  end.

(** pkg/schemapatcher/internal/yaml/set.go:73-80, removing the first pair with the key. *)
Fixpoint remove_key (c : list node) (key : string) {struct c} : list node :=
  match c with
  | k :: v :: c' => if String.eqb (n_value k) key then c' else k :: v :: remove_key c' key
  | _ => c
  end.
(** pkg/schemapatcher/internal/yaml/set.go:52-85, DeleteNode. *)
Definition delete_node (root : node) (path : list string) : option node :=
  match rev path with
  | [] => None
  | key :: rparent =>
      match as_close root (rev rparent) with
      | None => None
      | Some (_, _ :: _) => Some root
      | Some (pos, []) =>
          match node_at pos root with
          | Some parent => if negb (is_mapping parent) then None else Some (update_at pos (fun n => set_content n (remove_key (n_content n) key)) root)
          | None => None
          end
      end
  end.

(** pkg/schemapatcher/internal/yaml/convert.go:48-61, SetStyle. *)
Fixpoint set_style (st : nat) (n : node) : node :=
  let h := n_head n in
  Node (n_kind n) (mkHead st (h_tag h) (h_value h) (h_anchor h) (h_head_comment h) (h_line_comment h) (h_foot_comment h))
    (map (set_style st) (n_content n)).

(** ** Patching *)

(** A Go function that can also panic. How a function of pkg/schemapatcher/gen.go:220-331 ends. *)
Inductive outcome (A : Type) := Done (a : A) | Failed | Panics.
Arguments Done {A} a.
Arguments Failed {A}.
Arguments Panics {A}.

Section Patch.
  (** Schemata, and ToYAML of one without its document node (convert.go:29-46 and pkg/schemapatcher/gen.go:320); None: error. *)
  Variable T : Type.
  Variable to_yaml : T -> option node.
  (** ShortTag of a yaml.Node *)
  Variable short_tag : node -> string.

  (** pkg/schemapatcher/gen.go:303-328, one iteration of the loop of setVersionedSchemata. *)
  Definition patch_version (new : list (string * T)) (ver : node) : outcome node :=
    match get_node ver ["name"] with
    | Some (Some nameNode) =>
        if negb (ykind_eqb (n_kind nameNode) Scalar) || negb (String.eqb (short_tag nameNode) "!!str") then Failed
        else if String.eqb (n_value nameNode) "" then Failed
        else match mget String.eqb new (n_value nameNode) with
             | None => match delete_node ver ["schema"] with Some v => Done v | None => Failed end
             | Some s =>
                 match to_yaml s with
                 | None => Failed
                 | Some y => match set_node ver (set_style 0 y) ["schema"; "openAPIV3Schema"] with Some v => Done v | None => Failed end
                 end
             end
    | _ => Panics                                    (* 304: nameNode is nil *)
    end.
  (** The loop of pkg/schemapatcher/gen.go:303-328 *)
  Fixpoint patch_versions (new : list (string * T)) (vers : list node) : outcome (list node) :=
    match vers with
    | [] => Done []
    | v :: vers' =>
        match patch_version new v with
        | Done v' => match patch_versions new vers' with Done l => Done (v' :: l) | Failed => Failed | Panics => Panics end
        | Failed => Failed
        | Panics => Panics
        end
    end.

  (** pkg/schemapatcher/gen.go:289-331, partialCRD.setVersionedSchemata, with getVersionsNode (261-273). *)
  Definition set_versioned (new : list (string * T)) (doc : node) : outcome node :=
    match delete_node doc ["spec"; "validation"] with
    | None => Failed
    | Some doc1 =>
        match get_pos doc1 ["spec"; "versions"] with
        | None | Some None => Failed
        | Some (Some pos) =>
            match node_at pos doc1 with
            | Some versions =>
                if negb (ykind_eqb (n_kind versions) Sequence) then Failed
                else match patch_versions new (n_content versions) with
                     | Done l => Done (update_at pos (fun n => set_content n l) doc1)
                     | Failed => Failed
                     | Panics => Panics
                     end
            | None => Failed
            end
        end
    end.

  (** pkg/schemapatcher/gen.go:214-247, partialCRDSet and partialCRD. A group-kind is a pair of strings. *)
  Record crdset := mkSet { cs_versions : list string; cs_new : list (string * T); cs_docs : list (string * node) }.
  (** schema.GroupKind, the keys of the map of pkg/schemapatcher/gen.go:116 *)
  Definition gk := (string * string)%type.
  (** schema.GroupKind, the keys of the map of pkg/schemapatcher/gen.go:116 *)
  Definition gk_eqb (a b : gk) : bool := String.eqb (fst a) (fst b) && String.eqb (snd a) (snd b).

  (** pkg/schemapatcher/gen.go:116-143: the schemata found for one group-kind. [gvs] are the entries of
      parser.GroupVersions (package, group, version) in some order; [schema_of] is the flattened and truncated schema. *)
  Variable schema_of : string -> string -> T.
  Definition collect (g : gk) (gvs : list (string * (string * string))) (s : crdset) : crdset :=
    fold_left (fun s p =>
      if String.eqb (fst (snd p)) (fst g) && mem_str (snd (snd p)) (cs_versions s)
      then mkSet (cs_versions s) (mset String.eqb (cs_new s) (snd (snd p)) (schema_of (fst p) (snd g))) (cs_docs s)
      else s) gvs s.
  (** pkg/schemapatcher/gen.go:116-143 *)
  Definition collect_all (ord : list (string * (string * string)) -> list (string * (string * string)))
      (kinds : list gk) (gvs : list (string * (string * string))) (sets : list (gk * crdset)) : list (gk * crdset) :=
    fold_left (fun sets g =>
      match mget gk_eqb sets g with
      | None => sets
      | Some s => mset gk_eqb sets g (collect g (ord gvs) s)
      end) kinds sets.

  (** pkg/schemapatcher/gen.go:249-257 and 277-284: setGlobalSchema and setVersionedSchemata are the same loop. *)
  Fixpoint patch_docs (new : list (string * T)) (docs : list (string * node)) : outcome (list (string * node)) :=
    match docs with
    | [] => Done []
    | (f, d) :: docs' =>
        match set_versioned new d with
        | Done d' => match patch_docs new docs' with Done l => Done ((f, d') :: l) | Failed => Failed | Panics => Panics end
        | Failed => Failed
        | Panics => Panics
        end
    end.
  (** pkg/schemapatcher/gen.go:148-183 and 186-207: patch all sets, then write all documents; the entries are visited in
      the order of the list. The result is the list of files written. *)
  Fixpoint patch_sets (sets : list (gk * crdset)) : outcome (list (string * node)) :=
    match sets with
    | [] => Done []
    | (_, s) :: sets' =>
        match (match cs_new s with [] => Done (cs_docs s) | _ => patch_docs (cs_new s) (cs_docs s) end) with
        | Done out => match patch_sets sets' with Done l => Done (out ++ l) | Failed => Failed | Panics => Panics end
        | Failed => Failed
        | Panics => Panics
        end
    end.

  (** pkg/schemapatcher/gen.go:89-207, Generate after the manifests are read. *)
  Definition generate ord (ord_sets : list (gk * crdset) -> list (gk * crdset)) (kinds : list gk)
      (gvs : list (string * (string * string))) (sets : list (gk * crdset)) : outcome (list (string * node)) :=
    patch_sets (ord_sets (collect_all ord kinds gvs sets)).

  (** pkg/schemapatcher/gen.go:335-406, crdsFromDirectory after decoding: the files that are CRDs, with their group-kind
      and versions. *)
  Definition load (files : list (string * (gk * list string * node))) : list (gk * crdset) :=
    fold_left (fun sets f =>
      let '(name, (g, vers, doc)) := f in
      let s := match mget gk_eqb sets g with Some s => s | None => mkSet [] [] [] end in
      mset gk_eqb sets g (mkSet (fold_left (fun l v => if mem_str v l then l else l ++ [v]) vers (cs_versions s))
                                (cs_new s) (cs_docs s ++ [(name, doc)]))) files [].
End Patch.
