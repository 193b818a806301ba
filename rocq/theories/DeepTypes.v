(** * Generated DeepCopy methods: the Go typing rules for the generated code

    Does the code written by the generator compile?  The rules below are those of
    the Go specification for the statements of DeepModel.v; "declared and not used"
    is not modelled.  Nothing here mentions how the generator works. *)

From Coq Require Import String List Bool Arith.
Import ListNotations.
From Verif Require Import GoLib DeepModel DeepSpec.
Open Scope string_scope.
Open Scope nat_scope.
Open Scope list_scope.

(** Type identity. *)
Fixpoint ty_eqb (t u : ty) {struct t} : bool :=
  match t, u with
  | TBasic b s, TBasic b' s' => Bool.eqb b b' && String.eqb s s'
  | TNamed n, TNamed n' => String.eqb n n'
  | TPtr e, TPtr e' => ty_eqb e e'
  | TSlice e, TSlice e' => ty_eqb e e'
  | TMap k e, TMap k' e' => ty_eqb k k' && ty_eqb e e'
  | TStruct fs, TStruct gs =>
      (fix go (fs gs : list ty) : bool :=
         match fs, gs with
         | [], [] => true
         | f :: fs', g :: gs' => ty_eqb f g && go fs' gs'
         | _, _ => false
         end) fs gs
  | TOther s, TOther s' => String.eqb s s'
  | _, _ => false
  end.

Section Check.
Variable decls : string -> decl.
Variable M : string -> meths.

(** "Named types" of the specification: defined and predeclared types. *)
Definition named (t : ty) : bool := match t with TNamed _ | TBasic _ _ => true | _ => false end.

(** Assignability of a value of type [v] to a variable of type [t]. *)
Definition assignable (v t : ty) : bool :=
  ty_eqb v t ||
  (ty_eqb (under decls v) (under decls t) && (negb (named v) || negb (named t))).

(** The type of an expression, if it has one. *)
Definition etype (G : tenv) (e : expr) : option ty :=
  match e with
  | ERead l => tl decls G l
  | EAddr l => match tl decls G l with Some t => Some (TPtr t) | None => None end
  | ENil => None
  | ENew t => Some (TPtr t)
  | EMake t l =>
      match under decls t, tl decls G l with
      | TSlice _, Some u | TMap _ _, Some u =>
          match under decls u with TSlice _ | TMap _ _ => Some t | _ => None end
      | _, _ => None
      end
  | ECopy l => match tl decls G l with Some t => copy_ty decls M t | None => None end
  | ECopyVar x => match look G x with Some t => copy_ty decls M t | None => None end
  | EStarCopy l =>
      match tl decls G l with
      | Some t => match copy_ty decls M t with
                  | Some u => match under decls u with TPtr e => Some e | _ => None end
                  | None => None
                  end
      | None => None
      end
  | EMapAt l x =>
      match tl decls G l, look G x with
      | Some t, Some kt => match under decls t with
                           | TMap k e => if assignable kt k then Some e else None
                           | _ => None
                           end
      | _, _ => None
      end
  end.

(** [e] may be assigned to something of type [t]. *)
Definition may_assign (G : tenv) (e : expr) (t : ty) : bool :=
  match e with
  | ENil => by_ref (under decls t)
  | _ => match etype G e with Some v => assignable v t | None => false end
  end.

(** The variables in scope after a statement, if it type-checks. *)
Fixpoint check1 (G : tenv) (s : stmt) {struct s} : option tenv :=
  let block := fix block (G : tenv) (ss : list stmt) : bool :=
      match ss with
      | [] => true
      | s :: ss' => match check1 G s with Some G1 => block G1 ss' | None => false end
      end in
  let ok (b : bool) : option tenv := if b then Some G else None in
  match s with
  | SSet l e => match tl decls G l with Some t => ok (may_assign G e t) | None => None end
  | SSetMap l x e =>
      match tl decls G l, look G x with
      | Some t, Some kt => match under decls t with
                           | TMap k v => ok (assignable kt k && may_assign G e v)
                           | _ => None
                           end
      | _, _ => None
      end
  | SVar x t => Some ((x, t) :: G)
  | SLet x e => match etype G e with Some t => Some ((x, t) :: G) | None => None end
  | SInOut e1 e2 =>
      match etype G e1, etype G e2 with
      | Some t1, Some t2 => Some (("in", t1) :: ("out", t2) :: G)
      | _, _ => None
      end
  | SIfSome l b =>
      match tl decls G l with Some t => ok (by_ref (under decls t) && block G b) | None => None end
  | SIfNil l b1 b2 =>
      match tl decls G l with
      | Some t => ok (by_ref (under decls t) && block G b1 && block G b2)
      | None => None
      end
  | SForMap l b =>
      match tl decls G l with
      | Some t => match under decls t with
                  | TMap k e => ok (block (("key", k) :: ("val", e) :: G) b)
                  | _ => None
                  end
      | None => None
      end
  | SForSlice l b =>
      match tl decls G l with
      | Some t => match under decls t with
                  | TSlice _ => ok (block (("i", int_ty) :: G) b)
                  | _ => None
                  end
      | None => None
      end
  | SCopy l1 l2 =>
      match tl decls G l1, tl decls G l2 with
      | Some t1, Some t2 => match under decls t1, under decls t2 with
                            | TSlice e1, TSlice e2 => ok (ty_eqb e1 e2)
                            | _, _ => None
                            end
      | _, _ => None
      end
  | SInto l e =>
      match tl decls G l with
      | Some t => match target decls t with
                  | Some n => ok (into_exists M n && may_assign G e (TPtr (TNamed n)))
                  | None => None
                  end
      | None => None
      end
  | SBlock b => ok (block G b)
  end.

Fixpoint check (G : tenv) (ss : list stmt) : bool :=
  match ss with
  | [] => true
  | s :: ss' => match check1 G s with Some G1 => check G1 ss' | None => false end
  end.

(** The variables a generated DeepCopyInto of [n] starts with. *)
Definition start_types (n : string) : tenv :=
  [("in", TPtr (TNamed n)); ("out", TPtr (TNamed n))].

(** ** The packages the claim is about *)

(** Types for which the code compiles.  Not among them:
    - a struct type literal with references inside (it has no methods);
    - a slice of pointers, or a pointer to pointers, to a type with a manual method;
    - a pointer to a named slice, map or pointer type. *)
Fixpoint cshape (t : ty) : Prop :=
  match t with
  | TBasic _ _ | TNamed _ | TOther _ => True
  | TPtr e => cshape e /\ (is_struct e -> flat decls e) /\
              (has_any decls e = true -> is_ptr e = false) /\
              (by_ref (under decls e) = true -> has_any decls e = true \/ under decls e = e)
  | TSlice e => cshape e /\ (is_struct e -> flat decls e) /\ (has_any decls e = true -> is_ptr e = false)
  | TMap k e => cshape e /\ (is_struct e -> flat decls e)
  | TStruct fs =>
      (fix all (fs : list ty) : Prop :=
         match fs with
         | [] => True
         | f :: fs' => (cshape f /\ (is_struct f -> flat decls f)) /\ all fs'
         end) fs
  end.

Record package : Prop := {
  pk_under : forall n m, d_under (decls n) <> TNamed m;
  pk_ptr : forall n e, d_under (decls n) = TPtr e ->
           d_copy (decls n) = None /\ d_into (decls n) = false;
  pk_named_ptr : forall n e, d_under (decls n) = TPtr e ->
                 has_any decls e = false /\ (is_struct (under decls e) -> flat decls e);
  pk_shape : forall n, cshape (d_under (decls n));
  pk_need : forall n, needs_methods decls n -> callable decls M n }.

End Check.
