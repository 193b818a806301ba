(** * Generated DeepCopy methods: the generator

    Model of pkg/deepcopy/traverse.go: what code [copyMethodMaker] writes for a
    type.  The generator writes Go text line by line; here each line is a
    statement of a small fragment of Go ([stmt] below), whose meaning and typing
    rules are in DeepSpec.v.

    Simplifications:
    - types are those of go/types without type parameters and without
      [types.Alias]; every array, interface, function, channel, tuple, ... is
      [TOther], because the generator treats them all alike;
    - what [types.LookupFieldOrMethod] finds is a table ([decls]): for each named
      type, its underlying type and the manually written DeepCopy and DeepCopyInto
      methods with the right signature.  A field called DeepCopy or DeepCopyInto
      is not modelled;
    - struct fields are known by position rather than by name;
    - [Syntax] (traverse.go:169-207) is the identity on types; its errors are
      modelled, its import aliases are in ImportModel.v. *)

From Coq Require Import String List Bool Arith.
Import ListNotations.
From Verif Require Import GoLib.
Open Scope string_scope.
Open Scope nat_scope.
Open Scope list_scope.

(** ** Types *)

(** go/types types.  [TBasic bad s]: basic type [s]; [bad] for types.Invalid and
    types.UnsafePointer, the two kinds the code singles out
    (traverse.go:301, 498, 762). *)
Inductive ty : Type :=
| TBasic (bad : bool) (s : string)
| TNamed (n : string)
| TPtr (e : ty)
| TSlice (e : ty)
| TMap (k e : ty)
| TStruct (fs : list ty)
| TOther (s : string).

(** What is known of a named type: Underlying(), the manual DeepCopy found on it
    (with: is the receiver a pointer), and whether a manual DeepCopyInto is
    found. What pkg/deepcopy/traverse.go:661-735 asks of a named type. *)
Record decl := mkdecl { d_under : ty; d_copy : option bool; d_into : bool }.

(** ** The fragment of Go the generator writes *)

(** Operands that denote a variable. The operands in the text that pkg/deepcopy/traverse.go:284-565 writes. *)
Inductive lval : Type :=
| LVar (x : string)                (* x *)
| LStar (x : string)               (* *x, x a variable holding a pointer *)
| LStar2 (l : lval)                (* *l *)
| LField (l : lval) (i : nat)      (* l.F; also in.F, which is short for ( *in).F *)
| LIndex (l : lval) (x : string).  (* l[x], l a slice *)

(** The expressions in the text that pkg/deepcopy/traverse.go:284-565 writes *)
Inductive expr : Type :=
| ERead (l : lval)
| EAddr (l : lval)                 (* &l *)
| ENil
| ENew (t : ty)                    (* new(t) *)
| EMake (t : ty) (l : lval)        (* make(t, len(l)) *)
| ECopy (l : lval)                 (* l.DeepCopy() *)
| ECopyVar (x : string)            (* x.DeepCopy(), x a variable holding a pointer *)
| EStarCopy (l : lval)             (* *l.DeepCopy() *)
| EMapAt (l : lval) (x : string).  (* l[x], l a map *)

(** The statements in the text that pkg/deepcopy/traverse.go:284-565 writes *)
Inductive stmt : Type :=
| SSet (l : lval) (e : expr)                   (* l = e *)
| SSetMap (l : lval) (x : string) (e : expr)   (* l[x] = e, l a map *)
| SVar (x : string) (t : ty)                   (* var x t *)
| SLet (x : string) (e : expr)                 (* x := e *)
| SInOut (e1 e2 : expr)                        (* in, out := e1, e2 *)
| SIfSome (l : lval) (b : list stmt)           (* if l != nil { b } *)
| SIfNil (l : lval) (b1 b2 : list stmt)        (* if l == nil { b1 } else { b2 } *)
| SForMap (l : lval) (b : list stmt)           (* for key, val := range l { b } *)
| SForSlice (l : lval) (b : list stmt)         (* for i := range l { b } *)
| SCopy (l1 l2 : lval)                         (* copy(l1, l2) *)
| SInto (l : lval) (e : expr)                  (* l.DeepCopyInto(e) *)
| SBlock (b : list stmt).                      (* { b } *)

(** The errors added to the package. The calls of AddError in pkg/deepcopy/traverse.go:284-565. *)
Inductive derr : Type :=
| EInvalidType      (* "invalid type", traverse.go:302, 324 *)
| EMapKey           (* "invalid map key type", traverse.go:334 *)
| EMapValue         (* "invalid map value type", traverse.go:397 *)
| ESliceElem        (* "invalid slice element type", traverse.go:439 *)
| EField            (* "invalid field type", traverse.go:499, 511 *)
| EPtrElem          (* "invalid pointer element type", traverse.go:562 *)
| EName.            (* "name requested for invalid type", traverse.go:194 *)

(** Result of a part of the generator: the lines written and the errors added;
    [None] is "does not return" (out of fuel). *)
Definition res := option (list stmt * list derr).

(** codeWriter.Line and Linef, pkg/deepcopy/traverse.go:46-54 *)
Definition wr (ss : list stmt) : res := Some (ss, []).
(** A call of AddError and no text, pkg/deepcopy/traverse.go:284-565 *)
Definition fail (e : derr) : res := Some ([], [e]).
(** One call after the other, pkg/deepcopy/traverse.go:284-565 *)
Definition seq2 (r1 r2 : res) : res :=
  match r1, r2 with
  | Some (s1, e1), Some (s2, e2) => Some (s1 ++ s2, e1 ++ e2)
  | _, _ => None
  end.
(** codeWriter.For and If, pkg/deepcopy/traverse.go:56-82 *)
Definition wrap (f : list stmt -> list stmt) (r : res) : res :=
  match r with Some (ss, es) => Some (f ss, es) | None => None end.

Section Gen.
Variable decls : string -> decl.

(** ** Type predicates *)

(** eventualUnderlyingType, traverse.go:744-753.  Underlying() of a named type is
    never a named type in go/types, so the loop makes at most one step. *)
Definition under (t : ty) : ty :=
  match t with TNamed n => d_under (decls n) | _ => t end.

(** types.LookupFieldOrMethod(typeInfo, true, ...) for the two methods: a named
    type or a pointer to one, but not a pointer to a named pointer type.
    hasDeepCopyMethod, traverse.go:661-700. *)
Definition method_base (t : ty) : option string :=
  match t with
  | TNamed n => Some n
  | TPtr (TNamed n) => match d_under (decls n) with TPtr _ => None | _ => Some n end
  | _ => None
  end.

(** pkg/deepcopy/traverse.go:661-697 *)
Definition has_copy (t : ty) : option bool :=
  match method_base t with Some n => d_copy (decls n) | None => None end.

(** hasDeepCopyIntoMethod, traverse.go:703-733. *)
Definition has_into (t : ty) : bool :=
  match method_base t with Some n => d_into (decls n) | None => false end.

(** hasAnyDeepCopyMethod, traverse.go:737-740. *)
Definition has_any (t : ty) : bool :=
  match has_copy t with Some _ => true | None => has_into t end.

(** fineToShallowCopy, traverse.go:756-782; the recursion is over named types, so
    it has fuel. *)
Fixpoint shallow (n : nat) (t : ty) : option bool :=
  match n with
  | 0 => None
  | S n' =>
      match t with
      | TBasic bad _ => Some (negb bad)
      | TNamed m => shallow n' (d_under (decls m))
      | TStruct fs =>
          (fix all (fs : list ty) : option bool :=
             match fs with
             | [] => Some true
             | f :: fs' =>
                 match shallow n' f with
                 | Some true => all fs'
                 | Some false => Some false
                 | None => None
                 end
             end) fs
      | _ => Some false
      end
  end.

(** passesByReference, traverse.go:786-797. *)
Definition by_ref (t : ty) : bool :=
  match t with TSlice _ | TMap _ _ | TPtr _ => true | _ => false end.

(** The type assertions to *types.Pointer, pkg/deepcopy/traverse.go:569-610 *)
Definition is_ptr (t : ty) : bool := match t with TPtr _ => true | _ => false end.

(** usePtrReceiver, traverse.go:569-582. *)
Definition ptr_receiver (t : ty) : bool := negb (by_ref (under t)).

(** resultWillBePointer, traverse.go:584-608; the recursion goes through pointers
    and names. *)
Fixpoint result_ptr0 (n : nat) (t : ty) : option bool :=
  match n with
  | 0 => None
  | S n' =>
      match t with
      | TPtr e => result_ptr0 n' e
      | TMap _ _ | TSlice _ => Some false
      | TNamed m => result_ptr0 n' (d_under (decls m))
      | _ => Some true
      end
  end.
(** pkg/deepcopy/traverse.go:584-610 *)
Definition result_ptr (n : nat) (t : ty) (copy : option bool) : option bool :=
  match copy with Some p => Some p | None => result_ptr0 n t end.

(** Errors of Syntax, traverse.go:169-207. *)
Fixpoint syntax (t : ty) : list derr :=
  match t with
  | TBasic _ _ | TNamed _ => []
  | TPtr e | TSlice e => syntax e
  | TMap k e => syntax k ++ syntax e
  | TStruct _ | TOther _ => [EName]
  end.

(** A line that mentions the type [t]. Text with namingInfo.Syntax, pkg/deepcopy/traverse.go:161-207. *)
Definition wr_ty (t : ty) (ss : list stmt) : res := Some (ss, syntax t).

(** ** The lines written *)

(** The operands of pkg/deepcopy/traverse.go:330-565 *)
Definition star_in : lval := LStar "in".     (* *in *)
(** The operands of pkg/deepcopy/traverse.go:330-565 *)
Definition star_out : lval := LStar "out".   (* *out *)
(** The operands of pkg/deepcopy/traverse.go:406-443 *)
Definition in_i : lval := LIndex star_in "i".
(** The operands of pkg/deepcopy/traverse.go:406-443 *)
Definition out_i : lval := LIndex star_out "i".
(** The operands of pkg/deepcopy/traverse.go:447-515 *)
Definition in_f (i : nat) : lval := LField star_in i.
(** The operands of pkg/deepcopy/traverse.go:447-515 *)
Definition out_f (i : nat) : lval := LField star_out i.

(** The recursive call and the fuel left for it. *)
Section Step.
Variable n : nat.
Variable block : ty -> res.

(** genMapDeepCopy, traverse.go:341-401, the body of the loop. *)
Definition gen_map_body (e : ty) : res :=
  if has_any e then
    match result_ptr n e (has_copy e) with
    | None => None
    | Some in_is_ptr =>
        let in_is_ptr := match has_copy e with Some p => p | None => in_is_ptr end in
        if Bool.eqb in_is_ptr (is_ptr e)
        then wr [SSetMap star_out "key" (ECopy (LVar "val"))]
        else if is_ptr e
        then wr [SBlock [SLet "x" (ECopy (LVar "val"));
                         SSetMap star_out "key" (EAddr (LVar "x"))]]
        else wr [SSetMap star_out "key" (EStarCopy (LVar "val"))]
    end
  else
    match shallow n e with
    | None => None
    | Some true => wr [SSetMap star_out "key" (ERead (LVar "val"))]
    | Some false =>
        if by_ref (under e) then
          seq2 (wr_ty (under e) [SVar "outVal" (under e)])
            (wrap (fun b =>
                     [SIfNil (LVar "val")
                        [SSetMap star_out "key" ENil]
                        (SLet "inVal" (EMapAt star_in "key")
                           :: SInOut (EAddr (LVar "inVal")) (EAddr (LVar "outVal"))
                           :: b);
                      SSetMap star_out "key" (ERead (LVar "outVal"))])
               (block e))
        else match under e with
             | TStruct _ => wr [SSetMap star_out "key" (EStarCopy (LVar "val"))]
             | _ => fail EMapValue
             end
    end.

(** genMapDeepCopy, traverse.go:330-402; [t] is the actual type. *)
Definition gen_map (t k e : ty) : res :=
  match shallow n k with
  | None => None
  | Some false => fail EMapKey
  | Some true =>
      seq2 (wr_ty t [SSet star_out (EMake t star_in)])
        (wrap (fun b => [SForMap star_in b]) (gen_map_body e))
  end.

(** genSliceDeepCopy, traverse.go:406-443. *)
Definition gen_slice (t e : ty) : res :=
  seq2 (wr_ty t [SSet star_out (EMake t star_in)])
    (if has_any e then wr [SForSlice star_in [SInto in_i (EAddr out_i)]]
     else match shallow n (under e) with
          | None => None
          | Some true => wr [SCopy star_out star_in]
          | Some false =>
              wrap (fun b => [SForSlice star_in b])
                (if by_ref (under e) || has_any e then
                   wrap (fun b =>
                           [SIfSome in_i (SInOut (EAddr in_i) (EAddr out_i) :: b)])
                     (block e)
                 else match under e with
                      | TStruct _ => wr [SInto in_i (EAddr out_i)]
                      | _ => fail ESliceElem
                      end)
          end).

(** genStructDeepCopy, traverse.go:447-515: the field at position [i]; the flag
    says that the loop is left (the two [return]s). *)
Definition gen_field (i : nat) (f : ty) : option (list stmt * list derr * bool) :=
  let go (r : res) : option (list stmt * list derr * bool) :=
    match r with Some (ss, es) => Some (ss, es, false) | None => None end in
  let delegate : res :=
    wrap (fun b =>
            [SIfSome (in_f i) (SInOut (EAddr (in_f i)) (EAddr (out_f i)) :: b)])
      (block f) in
  if has_any f then
    match result_ptr n f (has_copy f) with
    | None => None
    | Some in_is_ptr =>
        go (if is_ptr f then delegate
            else if Bool.eqb in_is_ptr (is_ptr f)
            then wr [SSet (out_f i) (ECopy (in_f i))]
            else wr [SInto (in_f i) (EAddr (out_f i))])
    end
  else if by_ref (under f) then go delegate
  else match under f with
       | TBasic true _ => Some ([], [EField], true)
       | TBasic false _ => go (wr [])
       | TStruct _ =>
           match shallow n f with
           | None => None
           | Some true => go (wr [SSet (out_f i) (ERead (in_f i))])
           | Some false => go (wr [SInto (in_f i) (EAddr (out_f i))])
           end
       | _ => Some ([], [EField], true)
       end.

(** The loop of pkg/deepcopy/traverse.go:447-515 *)
Fixpoint gen_fields (i : nat) (fs : list ty) : res :=
  match fs with
  | [] => wr []
  | f :: fs' =>
      match gen_field i f with
      | None => None
      | Some (ss, es, true) => Some (ss, es)
      | Some (ss, es, false) => seq2 (Some (ss, es)) (gen_fields (S i) fs')
      end
  end.

(** pkg/deepcopy/traverse.go:447-515 *)
Definition gen_struct (fs : list ty) : res :=
  seq2 (wr [SSet star_out (ERead star_in)]) (gen_fields 0 fs).

(** genPointerDeepCopy, traverse.go:519-565. *)
Definition gen_pointer (e : ty) : res :=
  if has_any e then
    match result_ptr n e (has_copy e) with
    | None => None
    | Some out_needs_ptr =>
        let out_needs_ptr := match has_copy e with Some p => p | None => out_needs_ptr end in
        if out_needs_ptr then wr [SSet star_out (ECopy star_in)]
        else wr [SLet "x" (ECopy star_in); SSet star_out (EAddr (LVar "x"))]
    end
  else
    match shallow n (under e) with
    | None => None
    | Some true =>
        wr_ty e [SSet star_out (ENew e); SSet (LStar2 star_out) (ERead (LStar2 star_in))]
    | Some false =>
        if by_ref (under e) then
          seq2 (wr_ty (under e) [SSet star_out (ENew (under e))])
            (wrap (fun b =>
                     [SIfSome (LStar2 star_in)
                        (SInOut (ERead star_in) (ERead star_out) :: b)])
               (block (under e)))
        else match under e with
             | TStruct _ =>
                 wr_ty e [SSet star_out (ENew e); SInto star_in (ERead star_out)]
             | _ => fail EPtrElem
             end
    end.

(** genDeepCopyIntoBlock, traverse.go:284-326.  The actual name passed along is
    always that of the type itself. *)
Definition gen_step (t : ty) : res :=
  let last := under t in
  if negb (is_ptr last) && has_any t
  then wr [SSet star_out (ECopyVar "in")]
  else match last with
       | TBasic true _ => fail EInvalidType
       | TBasic false _ =>
           seq2 (match has_copy t with
                 | Some _ => wr [SSet star_out (ECopyVar "in")]
                 | None => wr []
                 end)
             (wr [SSet star_out (ERead star_in)])
       | TMap k e => gen_map t k e
       | TSlice e => gen_slice t e
       | TStruct fs => gen_struct fs
       | TPtr e => gen_pointer e
       | TNamed _ | TOther _ => fail EInvalidType
       end.
End Step.

(** pkg/deepcopy/traverse.go:284-326 *)
Fixpoint gen_block (n : nat) (t : ty) : res :=
  match n with
  | 0 => None
  | S n' => gen_step n' (gen_block n') t
  end.

(** ** Methods *)

(** The DeepCopy and DeepCopyInto methods a named type ends up with: none, a
    manual one, or a generated one (with: is the receiver a pointer). The methods of the finished package,
    pkg/deepcopy/traverse.go:219-277. *)
Inductive copy_impl : Type :=
| NoCopy | CopyMan (on_ptr : bool) | CopyGen (on_ptr : bool).
(** The methods of the finished package, pkg/deepcopy/traverse.go:219-277 *)
Inductive into_impl : Type :=
| NoInto | IntoMan | IntoGen (on_ptr : bool) (body : list stmt).
(** The methods of the finished package, pkg/deepcopy/traverse.go:219-277 *)
Record meths := mkmeths { m_copy : copy_impl; m_into : into_impl }.

(** GenerateMethodsFor, traverse.go:219-280, up to DeepCopyObject.  With a
    non-pointer receiver the body runs in a block where [in] is the address of the
    receiver, which is how [in] is bound in DeepSpec.v. *)
Definition gen_methods (n : nat) (t : string) : option (meths * list derr) :=
  let d := decls t in
  let ptr := ptr_receiver (TNamed t) in
  let copy := match d_copy d with Some p => CopyMan p | None => CopyGen ptr end in
  if d_into d then Some (mkmeths copy IntoMan, [])
  else
    match d_copy d with
    | Some true =>
        Some (mkmeths copy
                (IntoGen ptr [SLet "clone" (ECopyVar "in");
                              SSet star_out (ERead (LStar2 (LVar "clone")))]), [])
    | Some false =>
        Some (mkmeths copy (IntoGen ptr [SSet star_out (ECopyVar "in")]), [])
    | None =>
        match gen_block n (TNamed t) with
        | Some (b, es) => Some (mkmeths copy (IntoGen ptr b), es)
        | None => None
        end
    end.

End Gen.
