(** * Model of pkg/loader/paths.go, pkg/loader/errors.go and Package.AddError. Definitions only. *)

From Coq Require Import List String Bool Arith.
From Verif Require Import GoLib.
Import ListNotations.
Open Scope string_scope.
Open Scope list_scope.

(** pkg/loader/paths.go:29-32 *)
Definition non_vendor_path (raw : string) : string := last (split_str "/vendor/" raw) "".

(** Error values. [EPlain] is any error of another type, given by its text; [EWrap] is fmt.Errorf("pre%w", e) and
    [EJoin] errors.Join. A token.Pos is a number. PositionedError embeds the interface [error], so that it has no method
    Unwrap (pkg/loader/errors.go:27-30). The nil error is not in the type. *)
Inductive err :=
| EPlain (msg : string)
| EPath (path msg : string)
| EScan (l : list (string * string))
| EType (pos : nat) (msg : string)
| EList (l : list err)
| EPos (pos : nat) (e : err)
| EWrap (pre : string) (e : err)
| EJoin (l : list err).

(** No Go counterpart: bounds the recursion of pkg/loader/errors.go:39-53 *)
Fixpoint err_size (e : err) : nat :=
  match e with
  | EList l | EJoin l => S (list_sum (map err_size l))
  | EPos _ e' | EWrap _ e' => S (err_size e')
  | _ => 1
  end.

(** errors.As(err, &asList) for a target of type ErrList: the first ErrList in the pre-order of the tree of Unwrap.
    Called in pkg/loader/loader.go:135-182. *)
Fixpoint as_list (e : err) : option (list err) :=
  match e with
  | EList l => Some l
  | EWrap _ e' => as_list e'
  | EJoin l => (fix first (l : list err) := match l with [] => None | x :: l' => match as_list x with Some r => Some r | None => first l' end end) l
  | _ => None
  end.

(** pkg/loader/errors.go:39-53. The recursion is on the elements of a smaller list; [fuel] is the size of the error. *)
Fixpoint err_from_node_fuel (fuel : nat) (e : err) (pos : nat) : err :=
  match fuel with
  | 0 => EPos pos e
  | S fuel' =>
      match as_list e with
      | Some l => EList (map (fun b => err_from_node_fuel fuel' b pos) l)
      | None => EPos pos e
      end
  end.
(** pkg/loader/errors.go:39-53 *)
Definition err_from_node (e : err) (pos : nat) : err := err_from_node_fuel (err_size e) e pos.

(** pkg/loader/errors.go:57-62 *)
Definition maybe_err_list (l : list err) : option err := match l with [] => None | _ => Some (EList l) end.

(** packages.Error and its kinds. golang.org/x/tools/go/packages: Error, made in pkg/loader/loader.go:135-182. *)
Inductive ekind := UnknownError | ListError | ParseError | TypeError.
(** golang.org/x/tools/go/packages: Error, made in pkg/loader/loader.go:135-182 *)
Record perr := mkPErr { pe_pos : string; pe_msg : string; pe_kind : ekind }.

Section AddError.
  (** Error() of the error types of the standard library; token.FileSet.Position(p).String(); the ID of the package *)
  Variable path_text : string -> string -> string.
  Variable scan_text : list (string * string) -> string.
  Variable type_text : nat -> string -> string.
  Variable position : nat -> string.
  Variable id : string.

  (** Error(). ErrList: pkg/loader/errors.go:67-69; PositionedError: that of the embedded error *)
  Fixpoint text (e : err) : string :=
    match e with
    | EPlain m => m
    | EPath p m => path_text p m
    | EScan l => scan_text l
    | EType p m => type_text p m
    | EList l => ("[" ++ join " " (map text l) ++ "]")%string
    | EPos _ e' => text e'
    | EWrap pre e' => (pre ++ text e')%string
    | EJoin l => join (String (Ascii.ascii_of_nat 10) "") (map text l)
    end.

  (** pkg/loader/loader.go:135-178: what is appended to p.Errors *)
  Fixpoint add_error (e : err) : list perr :=
    match e with
    | EPath p m => [mkPErr (p ++ ":1")%string m ParseError]
    | EScan l => map (fun s => mkPErr (fst s) (snd s) ParseError) l
    | EType p m => [mkPErr (position p) m TypeError]
    | EList l => flat_map add_error l
    | EPos p e' => [mkPErr (position p) (text e') UnknownError]
    | _ => [mkPErr (id ++ ":-")%string (text e) UnknownError]
    end.
End AddError.
