(** * Where a marker comment belongs

    Independent of the index that the visitor carries along: by positions alone. *)

From Coq Require Import List String Bool Arith Sorted.
From Verif Require Import GoLib DocModel RegistryModel CollectModel.
Import ListNotations.
Open Scope nat_scope.
Open Scope list_scope.

(** Where a call of Visit is in the file: the start of the node entered, or the end of the node left (the end of the
    file itself does not count). *)
Definition place (e : event) : nat :=
  match e with
  | Enter _ h => h_pos h
  | Leave h => match h_kind h with KFile => 0 | _ => h_end h end
  end.

(** The first call that comes after the group in the file. *)
Definition next (es : list event) (g : group) : option event := find (fun e => Nat.ltb (g_pos g) (place e)) es.

(** The groups directly above a node: what comes first after them is this node. *)
Definition above (all : list group) (es : list event) (h : header) : list group :=
  filter (fun g => match next es g with Some (Enter _ h') => Nat.eqb (h_id h') (h_id h) | _ => false end) all.

Definition is_doc (h : header) (g : group) : bool := match h_doc h with Some p => Nat.eqb (g_pos g) p | None => false end.

(** Its Godoc; the closest of the others; the rest. *)
Definition docs (all : list group) (es : list event) (h : header) : list group := filter (is_doc h) (above all es h).
Definition others (all : list group) (es : list event) (h : header) : list group := filter (fun g => negb (is_doc h g)) (above all es h).
Fixpoint last_of (l : list group) : list group := match l with [] => [] | [g] => [g] | _ :: l' => last_of l' end.
Definition closest all es h : list group := last_of (others all es h).
Definition farther all es h : list group := removelast (others all es h).

(** The markers of comment groups. *)
Definition written (godoc : bool) (gs : list group) : list marker :=
  map (fun c => mkMarker c godoc) (filter (fun c => is_marker_comment (c_text c)) (flat_map g_list gs)).

(** Those of a node: of the closest group, then of the Godoc. *)
Definition own (all : list group) (es : list event) (h : header) : list marker :=
  written false (closest all es h) ++ written true (docs all es h).

(** A declaration of one type, without parentheses. *)
Definition single (h : header) : bool := match h_kind h with KDecl false true => true | _ => false end.
Definition is_type (h : header) : bool := match h_kind h with KType => true | _ => false end.

(** The declaration whose type comes next, after some calls. *)
Definition open_decl (es : list event) : option header :=
  fold_left (fun o e => match e with
                        | Enter _ h => if single h then Some h else if is_type h then None else o
                        | Leave _ => o
                        end) es None.

Definition of_decl (all : list group) (es : list event) (o : option header) : list marker :=
  match o with Some d => own all es d | None => [] end.

(** What the package gets at a call. *)
Definition to_package (all : list group) (es : list event) (e : event) : list marker :=
  match e with
  | Leave _ => []
  | Enter top h =>
      (if top then written false (farther all es h) else []) ++
      match h_kind h with
      | KFile => own all es h
      | KDecl paren typ => if paren || negb typ then written false (closest all es h) else []
      | KOther => if top then written false (closest all es h) else []
      | KType | KField => []
      end
  end.

(** All that is taken at a call: also what a type, its declaration, or a field gets. *)
Definition share (all : list group) (es : list event) (e : event) : list marker :=
  to_package all es e ++
  match e with
  | Leave _ => []
  | Enter _ h => match h_kind h with
                 | KType | KField => own all es h
                 | KDecl _ _ => if single h then own all es h else []
                 | KFile | KOther => []
                 end
  end.

(** The groups below everything. *)
Definition below (all : list group) (es : list event) : list group :=
  filter (fun g => match next es g with None => true | Some _ => false end) all.

Definition entered (es : list event) : list nat := flat_map (fun e => match e with Enter _ h => [h_id h] | Leave _ => [] end) es.

(** A marker that is not for the type it is written at but for the package: it is not in the Godoc, and there is a
    definition for packages and none for types. *)
Definition known {A} (reg : registry A) (t : target) (m : marker) : bool :=
  match lookup A reg (marker_text m) t with Some _ => true | None => false end.
Definition misplaced {A} (reg : registry A) (m : marker) : bool :=
  negb (m_godoc m) && known reg DescribesPackage m && negb (known reg DescribesType m).

(** The nodes of a tree. *)
Inductive inside : node -> header -> Prop :=
| inside_self h cs : inside (Node h cs) h
| inside_child h cs c x : In c cs -> inside c x -> inside (Node h cs) x.

(** What go/parser and ast.Walk give. *)
Record well_formed (all : list group) (es : list event) : Prop := {
  (** comments are in the order of the file *)
  wf_sorted : StronglySorted (fun g g' => g_pos g < g_pos g') all;
  (** no node twice *)
  wf_ids : NoDup (entered es);
  (** the Godoc of a node is the last group above it *)
  wf_doc : forall top h p, In (Enter top h) es -> h_doc h = Some p ->
    exists g, In g (above all es h) /\ g_pos g = p /\ forall g', In g' (above all es h) -> g_pos g' <= p;
  (** a comment at the end of a line is left before the next node is entered: it is a node itself *)
  wf_trail : forall top h g, In (Enter top h) es -> In g all -> h_trail h = Some (g_pos g) ->
    exists h', next es g = Some (Leave h');
  (** a declaration without parentheses is that of one type *)
  wf_decl : forall p top h q, es = p ++ Enter top h :: q -> single h = true -> open_decl p = None;
  wf_close : open_decl es = None }.
