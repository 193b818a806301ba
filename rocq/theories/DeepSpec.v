(** * Generated DeepCopy methods: meaning of the generated code, and the claims

    A small-Go semantics: a heap of cells, values that may refer to cells, static
    types to resolve method calls, and an interpreter for the statements of
    DeepModel.v.  On top of it: what it means for a value to represent a finite
    tree, and for a method to have made a copy.  Nothing here mentions how the
    generator works. *)

From Coq Require Import String List Bool Arith Permutation.
Import ListNotations.
From Verif Require Import GoLib DeepModel.
Open Scope string_scope.
Open Scope nat_scope.
Open Scope list_scope.

(** ** Values and the heap *)

Notation loc := nat (only parsing).
(** An address: a cell, and a path of field / element positions inside it, since
    Go has pointers to fields and to elements. *)
Definition addr := (loc * list nat)%type.

Inductive val : Type :=
| VBas (s : string)                        (* a value of a basic type *)
| VNil                                     (* nil pointer, slice or map *)
| VPtr (a : addr)
| VSlice (base : addr) (off len : nat)     (* elements off .. off+len-1 of the array at base *)
| VMapRef (m : loc)
| VAgg (vs : list val)                     (* a struct, or the array behind a slice *)
| VMapData (kvs : list (val * val)).       (* the contents of a map; only as a whole cell *)

Definition heap := list val.

Definition set_nth {A} (i : nat) (x : A) (l : list A) : list A :=
  firstn i l ++ match skipn i l with [] => [] | _ :: r => x :: r end.

Fixpoint get (v : val) (p : list nat) : option val :=
  match p with
  | [] => Some v
  | i :: p' =>
      match v with
      | VAgg vs => match nth_error vs i with Some x => get x p' | None => None end
      | _ => None
      end
  end.

Fixpoint put (v : val) (p : list nat) (w : val) : option val :=
  match p with
  | [] => Some w
  | i :: p' =>
      match v with
      | VAgg vs =>
          match nth_error vs i with
          | Some x => match put x p' w with
                      | Some x' => Some (VAgg (set_nth i x' vs))
                      | None => None
                      end
          | None => None
          end
      | _ => None
      end
  end.

Definition hread (h : heap) (a : addr) : option val :=
  match nth_error h (fst a) with Some c => get c (snd a) | None => None end.

Definition hwrite (h : heap) (a : addr) (w : val) : option heap :=
  match nth_error h (fst a) with
  | Some c => match put c (snd a) w with
              | Some c' => Some (set_nth (fst a) c' h)
              | None => None
              end
  | None => None
  end.

(** A new cell is added at the end. *)
Definition alloc (h : heap) (v : val) : heap * loc := (h ++ [v], List.length h).

(** Equality of map keys. *)
Fixpoint val_eqb (v w : val) {struct v} : bool :=
  match v, w with
  | VBas s, VBas s' => String.eqb s s'
  | VNil, VNil => true
  | VAgg vs, VAgg ws =>
      (fix go (vs ws : list val) : bool :=
         match vs, ws with
         | [], [] => true
         | x :: vs', y :: ws' => val_eqb x y && go vs' ws'
         | _, _ => false
         end) vs ws
  | _, _ => false
  end.

Fixpoint map_at (kvs : list (val * val)) (k : val) : option val :=
  match kvs with
  | [] => None
  | (k', v) :: r => if val_eqb k' k then Some v else map_at r k
  end.
Fixpoint map_set (kvs : list (val * val)) (k w : val) : list (val * val) :=
  match kvs with
  | [] => [(k, w)]
  | (k', v) :: r => if val_eqb k' k then (k', w) :: r else (k', v) :: map_set r k w
  end.

(** ** Static types *)

(** A variable: a value that never changes and whose address is not taken, a cell
    of the heap, or a loop counter. *)
Inductive bind : Type :=
| BVal (t : ty) (v : val)
| BCell (t : ty) (l : loc)
| BIdx (i : nat).

Definition int_ty : ty := TBasic false "int".
Definition bind_ty (b : bind) : ty :=
  match b with BVal t _ => t | BCell t _ => t | BIdx _ => int_ty end.

Definition env := list (string * bind).
Definition tenv := list (string * ty).
Definition look {A} (E : list (string * A)) (x : string) : option A :=
  mget String.eqb E x.
Definition types_of (E : env) : tenv := map (fun xb => (fst xb, bind_ty (snd xb))) E.

Section Go.
Variable decls : string -> decl.
(** The methods of each named type in the finished program. *)
Variable M : string -> meths.

(** The receiver of DeepCopy is a pointer. *)
Definition on_ptr (n : string) : option bool :=
  match m_copy (M n) with NoCopy => None | CopyMan p => Some p | CopyGen p => Some p end.
Definition into_exists (n : string) : bool :=
  match m_into (M n) with NoInto => false | _ => true end.

(** Method lookup: x.DeepCopy() needs x of type N, or of type *N with N not itself
    a pointer type. *)
Definition target (t : ty) : option string := method_base decls t.

Fixpoint tl (G : tenv) (l : lval) : option ty :=
  match l with
  | LVar x => look G x
  | LStar x => match look G x with
               | Some t => match under decls t with TPtr e => Some e | _ => None end
               | None => None
               end
  | LStar2 l => match tl G l with
                | Some t => match under decls t with TPtr e => Some e | _ => None end
                | None => None
                end
  | LField l i => match tl G l with
                  | Some t => match under decls t with
                              | TStruct fs => nth_error fs i
                              | _ => None
                              end
                  | None => None
                  end
  | LIndex l x => match tl G l with
                  | Some t => match under decls t with TSlice e => Some e | _ => None end
                  | None => None
                  end
  end.

(** Result type of a call of DeepCopy on something of type [t]. *)
Definition copy_ty (t : ty) : option ty :=
  match target t with
  | Some n => match on_ptr n with
              | Some true => Some (TPtr (TNamed n))
              | Some false => Some (TNamed n)
              | None => None
              end
  | None => None
  end.

(** ** Execution *)

Variable zero : ty -> val.                            (* the zero value of a type *)
Variable ord : list (val * val) -> list (val * val).  (* order of range over a map *)
(** Manual methods and methods in other packages: they turn a value into a value,
    in a new heap. *)
Variable man : string -> heap -> val -> option (heap * val).

Section Run.
(** [into n a b h]: n's DeepCopyInto called on the value at [a] with destination
    [b]. *)
Variable into : string -> addr -> addr -> heap -> option heap.

(** [n.DeepCopy()] with the given receiver: a pointer, or a value. *)
Definition call_copy (n : string) (recv : val) (h : heap) : option (heap * val) :=
  match m_copy (M n) with
  | NoCopy => None
  | CopyMan true =>
      match recv with
      | VNil => Some (h, VNil)
      | VPtr a => match hread h a with
                  | Some v => match man n h v with
                              | Some (h1, w) => let (h2, l) := alloc h1 w in
                                                Some (h2, VPtr (l, []))
                              | None => None
                              end
                  | None => None
                  end
      | _ => None
      end
  | CopyMan false => man n h recv
  | CopyGen true =>                 (* ptrDeepCopy, traverse.go:801-809 *)
      match recv with
      | VNil => Some (h, VNil)
      | VPtr a => let (h1, l) := alloc h (zero (TNamed n)) in
                  match into n a (l, []) h1 with
                  | Some h2 => Some (h2, VPtr (l, []))
                  | None => None
                  end
      | _ => None
      end
  | CopyGen false =>                (* bareDeepCopy, traverse.go:812-820 *)
      match recv with
      | VNil => Some (h, VNil)
      | v => let (h1, l) := alloc h (zero (TNamed n)) in
             let (h2, a) := alloc h1 v in
             match into n (a, []) (l, []) h2 with
             | Some h3 => match hread h3 (l, []) with
                          | Some w => Some (h3, w)
                          | None => None
                          end
             | None => None
             end
      end
  end.

(** x.DeepCopy() with x of static type [t], value [v] and, if x can be addressed,
    address [a]. *)
Definition eval_copy (t : ty) (a : option addr) (v : val) (h : heap) : option (heap * val) :=
  match target t with
  | None => None
  | Some n =>
      match on_ptr n, is_ptr t with
      | Some true, false => match a with Some a => call_copy n (VPtr a) h | None => None end
      | Some false, false => call_copy n v h
      | Some true, true => call_copy n v h
      | Some false, true =>           (* the pointer is followed *)
          match v with
          | VPtr a' => match hread h a' with Some w => call_copy n w h | None => None end
          | _ => None
          end
      | None, _ => None
      end
  end.

Fixpoint eval_l (E : env) (l : lval) (h : heap) : option addr :=
  match l with
  | LVar x => match look E x with Some (BCell _ c) => Some (c, []) | _ => None end
  | LStar x => match look E x with Some (BVal _ (VPtr a)) => Some a | _ => None end
  | LStar2 l => match eval_l E l h with
                | Some a => match hread h a with Some (VPtr a') => Some a' | _ => None end
                | None => None
                end
  | LField l i => match eval_l E l h with
                  | Some a => Some (fst a, snd a ++ [i])
                  | None => None
                  end
  | LIndex l x =>
      match eval_l E l h, look E x with
      | Some a, Some (BIdx i) =>
          match hread h a with
          | Some (VSlice base off len) =>
              if i <? len then Some (fst base, snd base ++ [off + i]) else None
          | _ => None
          end
      | _, _ => None
      end
  end.

Definition val_at (E : env) (l : lval) (h : heap) : option val :=
  match eval_l E l h with Some a => hread h a | None => None end.

Definition eval (E : env) (e : expr) (h : heap) : option (heap * val) :=
  match e with
  | ERead l => match val_at E l h with Some v => Some (h, v) | None => None end
  | EAddr l => match eval_l E l h with Some a => Some (h, VPtr a) | None => None end
  | ENil => Some (h, VNil)
  | ENew t => let (h1, l) := alloc h (zero t) in Some (h1, VPtr (l, []))
  | EMake t l =>
      match under decls t, val_at E l h with
      | TSlice e, Some (VSlice _ _ len) =>
          let (h1, c) := alloc h (VAgg (repeat (zero e) len)) in
          Some (h1, VSlice (c, []) 0 len)
      | TSlice e, Some VNil =>
          let (h1, c) := alloc h (VAgg []) in Some (h1, VSlice (c, []) 0 0)
      | TMap _ _, Some _ => let (h1, c) := alloc h (VMapData []) in Some (h1, VMapRef c)
      | _, _ => None
      end
  | ECopy l =>
      match tl (types_of E) l, eval_l E l h with
      | Some t, Some a => match hread h a with
                          | Some v => eval_copy t (Some a) v h
                          | None => None
                          end
      | _, _ => None
      end
  | ECopyVar x => match look E x with
                  | Some (BVal t v) => eval_copy t None v h
                  | _ => None
                  end
  | EStarCopy l =>
      match tl (types_of E) l, eval_l E l h with
      | Some t, Some a =>
          match hread h a with
          | Some v => match eval_copy t (Some a) v h with
                      | Some (h1, VPtr a') => match hread h1 a' with
                                              | Some w => Some (h1, w)
                                              | None => None
                                              end
                      | _ => None
                      end
          | None => None
          end
      | _, _ => None
      end
  | EMapAt l x =>
      match tl (types_of E) l, val_at E l h, look E x with
      | Some t, Some (VMapRef m), Some (BVal _ k) =>
          match under decls t, nth_error h m with
          | TMap _ e, Some (VMapData kvs) =>
              match map_at kvs k with
              | Some v => Some (h, v)
              | None => Some (h, zero e)
              end
          | _, _ => None
          end
      | _, _, _ => None
      end
  end.

(** The static type of an expression; [ENil] has none of its own. *)
Definition te (G : tenv) (e : expr) : option ty :=
  match e with
  | ERead l => tl G l
  | EAddr l => match tl G l with Some t => Some (TPtr t) | None => None end
  | ENil => None
  | ENew t => Some (TPtr t)
  | EMake t _ => Some t
  | ECopy l => match tl G l with Some t => copy_ty t | None => None end
  | ECopyVar x => match look G x with Some t => copy_ty t | None => None end
  | EStarCopy l => match tl G l with
                   | Some t => match copy_ty t with
                               | Some (TPtr e) => Some e
                               | _ => None
                               end
                   | None => None
                   end
  | EMapAt l x => match tl G l with
                  | Some t => match under decls t with TMap _ e => Some e | _ => None end
                  | None => None
                  end
  end.

Definition is_nil (v : val) : bool := match v with VNil => true | _ => false end.

Section Loops.
Variable step : bind * bind -> heap -> option heap.
(** One iteration per entry, in the order given; [val] is a new variable each
    time. *)
Fixpoint each_entry (ke e : ty) (kvs : list (val * val)) (h : heap) : option heap :=
  match kvs with
  | [] => Some h
  | (k, v) :: r =>
      let (h1, c) := alloc h v in
      match step (BVal ke k, BCell e c) h1 with
      | Some h2 => each_entry ke e r h2
      | None => None
      end
  end.
Variable istep : nat -> heap -> option heap.
Fixpoint each_index (i n : nat) (h : heap) : option heap :=
  match n with
  | 0 => Some h
  | S n' => match istep i h with
            | Some h1 => each_index (S i) n' h1
            | None => None
            end
  end.
End Loops.

(** copy(dst, src) for two slices. *)
Definition do_copy (dst src : val) (h : heap) : option heap :=
  match dst, src with
  | VNil, _ | _, VNil => Some h
  | VSlice b1 o1 n1, VSlice b2 o2 n2 =>
      match hread h b1, hread h b2 with
      | Some (VAgg v1), Some (VAgg v2) =>
          let n := Nat.min n1 n2 in
          hwrite h b1 (VAgg (firstn o1 v1 ++ firstn n (skipn o2 v2) ++ skipn (o1 + n) v1))
      | _, _ => None
      end
  | _, _ => None
  end.

Fixpoint exec (E : env) (s : stmt) (h : heap) {struct s} : option (env * heap) :=
  let block := fix block (E : env) (ss : list stmt) (h : heap) : option heap :=
      match ss with
      | [] => Some h
      | s :: ss' => match exec E s h with
                    | Some (E1, h1) => block E1 ss' h1
                    | None => None
                    end
      end in
  let keep (r : option heap) : option (env * heap) :=
      match r with Some h1 => Some (E, h1) | None => None end in
  match s with
  | SSet l e =>
      match eval E e h with
      | Some (h1, v) => match eval_l E l h1 with
                        | Some a => keep (hwrite h1 a v)
                        | None => None
                        end
      | None => None
      end
  | SSetMap l x e =>
      match eval E e h with
      | Some (h1, v) =>
          match val_at E l h1, look E x with
          | Some (VMapRef m), Some (BVal _ k) =>
              match nth_error h1 m with
              | Some (VMapData kvs) => keep (hwrite h1 (m, []) (VMapData (map_set kvs k v)))
              | _ => None
              end
          | _, _ => None
          end
      | None => None
      end
  | SVar x t => let (h1, c) := alloc h (zero t) in Some ((x, BCell t c) :: E, h1)
  | SLet x e =>
      match te (types_of E) e, eval E e h with
      | Some t, Some (h1, v) => let (h2, c) := alloc h1 v in Some ((x, BCell t c) :: E, h2)
      | _, _ => None
      end
  | SInOut e1 e2 =>
      match te (types_of E) e1, te (types_of E) e2, eval E e1 h with
      | Some t1, Some t2, Some (h1, v1) =>
          match eval E e2 h1 with
          | Some (h2, v2) => Some (("in", BVal t1 v1) :: ("out", BVal t2 v2) :: E, h2)
          | None => None
          end
      | _, _, _ => None
      end
  | SIfSome l b =>
      match val_at E l h with
      | Some v => if is_nil v then Some (E, h) else keep (block E b h)
      | None => None
      end
  | SIfNil l b1 b2 =>
      match val_at E l h with
      | Some v => keep (block E (if is_nil v then b1 else b2) h)
      | None => None
      end
  | SForMap l b =>
      match tl (types_of E) l, val_at E l h with
      | Some t, Some v =>
          match under decls t, v with
          | TMap _ _, VNil => Some (E, h)
          | TMap kt e, VMapRef m =>
              match nth_error h m with
              | Some (VMapData kvs) =>
                  keep (each_entry
                          (fun kv h => block (("key", fst kv) :: ("val", snd kv) :: E) b h)
                          kt e (ord kvs) h)
              | _ => None
              end
          | _, _ => None
          end
      | _, _ => None
      end
  | SForSlice l b =>
      match val_at E l h with
      | Some VNil => Some (E, h)
      | Some (VSlice _ _ len) =>
          keep (each_index (fun i h => block (("i", BIdx i) :: E) b h) 0 len h)
      | _ => None
      end
  | SCopy l1 l2 =>
      match val_at E l1 h, val_at E l2 h with
      | Some v1, Some v2 => keep (do_copy v1 v2 h)
      | _, _ => None
      end
  | SInto l e =>
      match tl (types_of E) l, eval E e h with
      | Some t, Some (h1, VPtr b) =>
          match target t, is_ptr t, eval_l E l h1 with
          | Some n, false, Some a => keep (into n a b h1)
          | Some n, true, Some a =>
              match hread h1 a with
              | Some (VPtr a') => keep (into n a' b h1)
              | _ => None
              end
          | _, _, _ => None
          end
      | _, _ => None
      end
  | SBlock b => keep (block E b h)
  end.

Fixpoint exec_block (E : env) (ss : list stmt) (h : heap) : option heap :=
  match ss with
  | [] => Some h
  | s :: ss' => match exec E s h with
                | Some (E1, h1) => exec_block E1 ss' h1
                | None => None
                end
  end.
End Run.

(** The environment a generated DeepCopyInto body starts in. *)
Definition start (n : string) (a b : addr) : env :=
  [("in", BVal (TPtr (TNamed n)) (VPtr a)); ("out", BVal (TPtr (TNamed n)) (VPtr b))].

(** Calls of DeepCopyInto, nested at most [k] deep. *)
Fixpoint into (k : nat) (n : string) (a b : addr) (h : heap) : option heap :=
  match k with
  | 0 => None
  | S k' =>
      match m_into (M n) with
      | NoInto => None
      | IntoMan =>
          match hread h a with
          | Some v => match man n h v with
                      | Some (h1, w) => hwrite h1 b w
                      | None => None
                      end
          | None => None
          end
      | IntoGen true body => exec_block (into k') (start n a b) body h
      | IntoGen false body =>         (* the receiver is a copy, [in := &in] *)
          match hread h a with
          | Some v => let (h1, c) := alloc h v in
                      exec_block (into k') (start n (c, []) b) body h1
          | None => None
          end
      end
  end.

(** Calls of DeepCopy, on a receiver as [n]'s DeepCopy wants it. *)
Definition deep_copy (k : nat) (n : string) (recv : val) (h : heap) : option (heap * val) :=
  call_copy (into k) n recv h.

(** ** What a value is, apart from where it is stored *)

Inductive tree : Type :=
| RBas (s : string)
| RNil
| RPtr (t : tree)
| RSlice (ts : list tree)
| RMap (ks : list val) (ts : list tree)
| RStruct (ts : list tree).

(** [den h T v t fp]: in heap [h], [v] is a value of type [T] that stands for the
    tree [t]; [fp] lists the cells reached from it.  Cyclic values stand for no
    tree. *)
Inductive den (h : heap) : ty -> val -> tree -> list loc -> Prop :=
| den_bas T s : (exists b, under decls T = TBasic false b) -> den h T (VBas s) (RBas s) []
| den_nil T : by_ref (under decls T) = true -> den h T VNil RNil []
| den_ptr T e a v t fp :
    under decls T = TPtr e -> hread h a = Some v -> den h e v t fp ->
    den h T (VPtr a) (RPtr t) (fst a :: fp)
| den_slice T e base off len vs ts fps :
    under decls T = TSlice e -> hread h base = Some (VAgg vs) ->
    off + len <= List.length vs ->
    dens h (repeat e len) (firstn len (skipn off vs)) ts fps ->
    den h T (VSlice base off len) (RSlice ts) (fst base :: fps)
| den_map T k e m kvs kvs' kts ts fps :
    under decls T = TMap k e -> nth_error h m = Some (VMapData kvs) ->
    NoDup (map fst kvs) -> Permutation kvs kvs' ->
    dens h (repeat k (List.length kvs')) (map fst kvs') kts [] ->
    dens h (repeat e (List.length kvs')) (map snd kvs') ts fps ->
    den h T (VMapRef m) (RMap (map fst kvs') ts) (m :: fps)
| den_struct T fs vs ts fps :
    under decls T = TStruct fs -> dens h fs vs ts fps ->
    den h T (VAgg vs) (RStruct ts) fps
with dens (h : heap) : list ty -> list val -> list tree -> list loc -> Prop :=
| dens_nil : dens h [] [] [] []
| dens_cons T Ts v vs t ts fp fps :
    den h T v t fp -> dens h Ts vs ts fps ->
    dens h (T :: Ts) (v :: vs) (t :: ts) (fp ++ fps).

(** [h'] is [h] with new cells added, and what is stored at [b] changed. *)
Definition changes_only (h : heap) (b : addr) (h' : heap) : Prop :=
  List.length h <= List.length h' /\
  (forall l, l < List.length h -> l <> fst b -> nth_error h' l = nth_error h l) /\
  (exists c c' w, nth_error h (fst b) = Some c /\ nth_error h' (fst b) = Some c' /\
                  put c (snd b) w = Some c').

(** [h'] is [h] with new cells added. *)
Definition grows (h h' : heap) : Prop :=
  List.length h <= List.length h' /\
  (forall l, l < List.length h -> nth_error h' l = nth_error h l).

(** What is stored at [b] in [h'] stands for [t], and everything reachable from it
    was allocated after [h]. *)
Definition copy_at (h : heap) (T : ty) (t : tree) (b : addr) (h' : heap) : Prop :=
  exists v fp, hread h' b = Some v /\ den h' T v t fp /\
               (forall l, In l fp -> List.length h <= l < List.length h').

(** Manual and foreign methods do their job. *)
Definition copies (n : string) : Prop :=
  forall h v t fp, den h (TNamed n) v t fp ->
  exists h' w fp', man n h v = Some (h', w) /\ grows h h' /\
                   den h' (TNamed n) w t fp' /\
                   (forall l, In l fp' -> List.length h <= l < List.length h').

(** ** The programs the claims are about *)

(** A value of a flat type holds no reference at all. *)
Inductive flat : ty -> Prop :=
| flat_basic s : flat (TBasic false s)
| flat_named n : flat (d_under (decls n)) -> flat (TNamed n)
| flat_struct fs : (forall f, In f fs -> flat f) -> flat (TStruct fs).

Definition is_struct (t : ty) : Prop := exists fs, t = TStruct fs.

(** A type that other types rely on to have the two methods: it has one of them
    already, or it is a struct with references inside. *)
Definition needs_methods (n : string) : Prop :=
  d_copy (decls n) <> None \/ d_into (decls n) = true \/
  (is_struct (d_under (decls n)) /\ ~ flat (TNamed n)).

(** ... and has them, with the receiver the generator itself would give DeepCopy
    unless it is manual. *)
Definition callable (n : string) : Prop :=
  into_exists n = true /\
  on_ptr n = Some (match d_copy (decls n) with
                   | Some p => p
                   | None => ptr_receiver decls (TNamed n)
                   end).

(** Shapes of types for which correct code is generated.  Not among them:
    - a struct type literal with references inside (it has no methods);
    - a slice of pointers, or a pointer to pointers, to a type with a manual method;
    - a map to pointers to a type whose DeepCopy has a value receiver. *)
Fixpoint shape (t : ty) : Prop :=
  match t with
  | TBasic _ _ | TNamed _ | TOther _ => True
  | TPtr e => shape e /\ (is_struct e -> flat e) /\ (has_any decls e = true -> is_ptr e = false)
  | TSlice e => shape e /\ (is_struct e -> flat e) /\ (has_any decls e = true -> is_ptr e = false)
  | TMap k e =>
      shape e /\ (is_struct e -> flat e) /\
      (has_any decls e = true -> is_ptr e = true ->
       exists n, e = TPtr (TNamed n) /\ on_ptr n = Some true)
  | TStruct fs =>
      (fix all (fs : list ty) : Prop :=
         match fs with
         | [] => True
         | f :: fs' => (shape f /\ (is_struct f -> flat f)) /\ all fs'
         end) fs
  end.

(** Methods that are not generated here: manual ones and those of other packages. *)
Definition given (n : string) : Prop :=
  (m_copy (M n) = NoCopy \/ exists p, m_copy (M n) = CopyMan p) /\
  (m_into (M n) = NoInto \/ m_into (M n) = IntoMan).

Record program : Prop := {
  (* go/types: an underlying type is not a named type *)
  pr_under : forall n m, d_under (decls n) <> TNamed m;
  (* Go: no methods on named pointer types *)
  pr_ptr : forall n e, d_under (decls n) = TPtr e ->
           d_copy (decls n) = None /\ d_into (decls n) = false;
  (* no named pointer type to a type whose methods would be called through it *)
  pr_named_ptr : forall n e, d_under (decls n) = TPtr e ->
                 has_any decls e = false /\ (is_struct (under decls e) -> flat e);
  pr_shape : forall n, shape (d_under (decls n));
  (* the methods of a type are given, or generated without an error *)
  pr_made : forall n, given n \/ exists k, gen_methods decls k n = Some (M n, []);
  pr_need : forall n, needs_methods n -> callable n;
  (* the methods not generated here copy properly *)
  pr_given : forall n, (exists p, m_copy (M n) = CopyMan p) \/ m_into (M n) = IntoMan -> copies n;
  (* Go: the zero value of a pointer, slice or map type *)
  pr_zero : forall t, by_ref (under decls t) = true -> zero t = VNil;
  (* Go: range over a map visits each entry once *)
  pr_ord : forall kvs, Permutation (ord kvs) kvs }.

End Go.

Fixpoint size (t : tree) : nat :=
  match t with
  | RBas _ | RNil => 1
  | RPtr t => S (size t)
  | RSlice ts => S (list_sum (map size ts))
  | RMap _ ts => S (list_sum (map size ts))
  | RStruct ts => S (list_sum (map size ts))
  end.
