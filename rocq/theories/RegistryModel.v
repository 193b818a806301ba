(** * Model of pkg/markers/reg.go and of splitMarker. Definitions only.

    A definition is its name, its target and a payload (what it parses to), compared as a pointer in the code and here
    by the payload. The locks of the registry are not modelled. *)

From Coq Require Import List String Ascii Bool Arith.
From Verif Require Import GoLib.
Import ListNotations.
Open Scope string_scope.
Open Scope list_scope.

(** pkg/markers/parse.go:684-694 *)
Inductive target := DescribesPackage | DescribesType | DescribesField.

(** Go: strings.SplitN(s, c, 2): None if there is only one part. Called at pkg/markers/parse.go:968. *)
Fixpoint cut_char (c : ascii) (s : string) : option (string * string) :=
  match s with
  | EmptyString => None
  | String a s' =>
      if Ascii.eqb a c then Some (EmptyString, s')
      else match cut_char c s' with None => None | Some (x, y) => Some (String a x, y) end
  end.

(** pkg/markers/parse.go:966-981, without the leading '+' that raw[1:] drops (None: the slice expression panics) *)
Definition split_marker (raw : string) : option (string * string * string) :=
  match raw with
  | EmptyString => None
  | String _ body =>
      match cut_char "=" body with
      | None => Some (body, body, "")
      | Some (anon, rest) =>
          let parts := split_char ":" anon in
          Some (if Nat.ltb 1 (List.length parts) then join ":" (removelast parts) else anon, anon, rest)
      end
  end.

Section Registry.
  Variable A : Type.
  (** pkg/markers/parse.go:710-728 *)
  Record def := mkDef { d_name : string; d_target : target; d_payload : A }.
  (** The maps of pkg/markers/reg.go:26-34 *)
  Definition defs := list (string * def).
  (** pkg/markers/reg.go:26-34 *)
  Record registry := mkRegistry { for_pkg : defs; for_type : defs; for_field : defs }.
  (** The zero Registry, pkg/markers/reg.go:26-34 *)
  Definition empty : registry := mkRegistry [] [] [].

  (** pkg/markers/reg.go:66-83 *)
  Definition register (r : registry) (d : def) : registry :=
    match d_target d with
    | DescribesPackage => mkRegistry (mset String.eqb (for_pkg r) (d_name d) d) (for_type r) (for_field r)
    | DescribesType => mkRegistry (for_pkg r) (mset String.eqb (for_type r) (d_name d) d) (for_field r)
    | DescribesField => mkRegistry (for_pkg r) (for_type r) (mset String.eqb (for_field r) (d_name d) d)
    end.
  (** pkg/markers/regutil.go:29-36, on a fresh registry *)
  Definition register_all (ds : list def) : registry := fold_left register ds empty.

  (** pkg/markers/reg.go:143-154 *)
  Definition try_anon_lookup (raw : string) (m : defs) : option def :=
    match split_marker raw with
    | None => None
    | Some (name, anon, _) =>
        match mget String.eqb m anon with
        | Some d => Some d
        | None => mget String.eqb m name
        end
    end.
  (** pkg/markers/reg.go:97-113 *)
  Definition lookup (r : registry) (raw : string) (t : target) : option def :=
    try_anon_lookup raw (match t with DescribesPackage => for_pkg r | DescribesType => for_type r | DescribesField => for_field r end).
End Registry.
Arguments mkDef {A}.
Arguments d_name {A}.
Arguments d_target {A}.
Arguments d_payload {A}.

(** pkg/markers/parse.go:828-843: the text of the arguments that Definition.Parse scans; [has_names] is
    !AnonymousField() && !Empty(); a type with its own ParseMarker gets the three parts instead. None: panic. *)
Definition argument_text (has_names : bool) (raw : string) : option string :=
  match split_marker raw with
  | None => None
  | Some (name, anon, fields) =>
      if has_names && Nat.leb (String.length name + 1) (String.length anon)
      then Some (str_drop (String.length name + 1) anon ++ "=" ++ fields)%string
      else Some fields
  end.
