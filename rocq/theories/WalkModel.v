(** * Model of pkg/crd/schema_visitor.go (schema walking). Definitions only. *)

From Coq Require Import List String Bool.
From Verif Require Import GoLib SchemaModel.
Import ListNotations.
Open Scope string_scope.
Open Scope list_scope.

Section Walk.
  (** Visitors (values behind the SchemaVisitor interface) and the rest of the program state. *)
  Variable V St : Type.
  (** pkg/crd/schema_visitor.go:24-35: Visit on a node may edit the node in place and returns the visitor for
      the children, or nil. *)
  Variable visit : V -> schema -> St -> schema * St * option V.
  (** The closing call Visit(nil); a visitor that kept the pointer may still edit the node. Its result is ignored
      (schema_visitor.go:72). *)
  Variable finish : V -> schema -> St -> schema * St.
  (** Iteration order of Go maps. *)
  Variable ord : list string -> list string.

  (** Deferred calls run last-in first-out (schema_visitor.go:72); [vs] has the latest visitor first. *)
  Fixpoint close_all (vs : list V) (s : schema) (st : St) : schema * St :=
    match vs with
    | [] => (s, st)
    | v :: vs' => let (s1, st1) := finish v s st in close_all vs' s1 st1
    end.

  (** pkg/crd/schema_visitor.go:61-79: the loop over a chain of references. The last component is None when Visit
      returned nil. Fuel: a visitor may produce new references for ever. *)
  Fixpoint open_loop (fuel : nat) (v : V) (s : schema) (seen : list string) (opened : list V) (st : St)
    : option (schema * St * list V * option V) :=
    match fuel with
    | O => None
    | S fuel' =>
        let '(s1, st1, r) := visit v s st in
        match r with
        | None => Some (s1, st1, opened, None)
        | Some v1 =>
            match k_ref (s_kw s1) with
            | None => Some (s1, st1, v1 :: opened, Some v1)
            | Some ref =>
                if String.eqb ref "" || mem_str ref seen
                then Some (s1, st1, v1 :: opened, Some v1)
                else open_loop fuel' v1 s1 (ref :: seen) (v1 :: opened) st1
            end
        end
    end.

  Section Children.
    Variable w : schema -> St -> option (schema * St).   (* the recursive call *)

    (** pkg/crd/schema_visitor.go:126-131, walkPtr. *)
    Definition walk_opt (o : option schema) (st : St) : option (option schema * St) :=
      match o with
      | None => Some (None, st)
      | Some s => match w s st with Some (s', st') => Some (Some s', st') | None => None end
      end.

    (** pkg/crd/schema_visitor.go:119-123, walkSlice. *)
    Fixpoint walk_list (l : list schema) (st : St) : option (list schema * St) :=
      match l with
      | [] => Some ([], st)
      | s :: l' =>
          match w s st with
          | None => None
          | Some (s', st') =>
              match walk_list l' st' with
              | None => None
              | Some (l'', st'') => Some (s' :: l'', st'')
              end
          end
      end.

    (** pkg/crd/schema_visitor.go:107-116, walkMap: each value is copied, walked and stored back. *)
    Fixpoint walk_keys (ks : list string) (m : list (string * schema)) (st : St) : option (list (string * schema) * St) :=
      match ks with
      | [] => Some (m, st)
      | k :: ks' =>
          match mget String.eqb m k with
          | None => walk_keys ks' m st
          | Some s =>
              match w s st with
              | None => None
              | Some (s', st') => walk_keys ks' (mset String.eqb m k s') st'
              end
          end
      end.
    (** pkg/crd/schema_visitor.go:107-116 *)
    Definition walk_map (m : list (string * schema)) (st : St) := walk_keys (ord (mkeys m)) m st.

    (** pkg/crd/schema_visitor.go:96-99. *)
    Fixpoint walk_dep_keys (ks : list string) (m : list (string * (option schema * list string))) (st : St) :=
      match ks with
      | [] => Some (m, st)
      | k :: ks' =>
          match mget String.eqb m k with
          | None => walk_dep_keys ks' m st
          | Some (o, names) =>
              match walk_opt o st with
              | None => None
              | Some (o', st') => walk_dep_keys ks' (mset String.eqb m k (o', names)) st'
              end
          end
      end.
    (** pkg/crd/schema_visitor.go:96-99 *)
    Definition walk_deps (m : list (string * (option schema * list string))) (st : St) := walk_dep_keys (ord (mkeys m)) m st.

    (** pkg/crd/schema_visitor.go:83-86. *)
    Definition walk_items (i : option (option schema * list schema)) (st : St) :=
      match i with
      | None => Some (None, st)
      | Some (o, l) =>
          match walk_opt o st with
          | None => None
          | Some (o', st1) => match walk_list l st1 with None => None | Some (l', st2) => Some (Some (o', l'), st2) end
          end
      end.
    (** pkg/crd/schema_visitor.go:92-94 and 100-102. *)
    Definition walk_orbool (a : option (bool * option schema)) (st : St) :=
      match a with
      | None => Some (None, st)
      | Some (b, o) => match walk_opt o st with None => None | Some (o', st1) => Some (Some (b, o'), st1) end
      end.

    (** pkg/crd/schema_visitor.go:81-103. *)
    Definition walk_children (s : schema) (st : St) : option (schema * St) :=
      match walk_items (s_items s) st with None => None | Some (items, st) =>
      match walk_list (s_allOf s) st with None => None | Some (allOf, st) =>
      match walk_list (s_oneOf s) st with None => None | Some (oneOf, st) =>
      match walk_list (s_anyOf s) st with None => None | Some (anyOf, st) =>
      match walk_opt (s_not s) st with None => None | Some (not_, st) =>
      match walk_map (s_props s) st with None => None | Some (props, st) =>
      match walk_orbool (s_addl s) st with None => None | Some (addl, st) =>
      match walk_map (s_patprops s) st with None => None | Some (patprops, st) =>
      match walk_deps (s_deps s) st with None => None | Some (deps, st) =>
      match walk_orbool (s_addl_items s) st with None => None | Some (addlItems, st) =>
      match walk_map (s_defs s) st with None => None | Some (defs, st) =>
      Some (Sch (s_kw s) items allOf oneOf anyOf not_ props addl patprops deps addlItems defs, st)
      end end end end end end end end end end end.
  End Children.

  (** pkg/crd/schema_visitor.go:58-104, walkSchema; 40-43, EditSchema. None: out of fuel. *)
  Fixpoint walk (fuel : nat) (v : V) (s : schema) (st : St) : option (schema * St) :=
    match fuel with
    | O => None
    | S fuel' =>
        let seen := match k_ref (s_kw s) with Some r => [r] | None => [] end in
        match open_loop fuel v s seen [] st with
        | None => None
        | Some (s1, st1, opened, None) => Some (close_all opened s1 st1)
        | Some (s1, st1, opened, Some v1) =>
            match walk_children (walk fuel' v1) s1 st1 with
            | None => None
            | Some (s2, st2) => Some (close_all opened s2 st2)
            end
        end
    end.
End Walk.
Arguments walk {V St}.
Arguments walk_children {St}.
