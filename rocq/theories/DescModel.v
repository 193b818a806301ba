(** * Model of pkg/crd/desc_visitor.go (maxDescLen). Definitions only. *)

From Coq Require Import List String Ascii Bool NArith ZArith.
From Verif Require Import GoLib SchemaModel WalkModel.
Import ListNotations.
Open Scope string_scope.
Open Scope N_scope.

Definition code (a : ascii) : N := N_of_ascii a.
(** Go unicode/utf8: the ranges of bytes, below pkg/crd/desc_visitor.go:62-81 *)
Definition in_range (lo hi x : N) : bool := (lo <=? x) && (x <=? hi).

(** Go utf8.RuneError. Used below pkg/crd/desc_visitor.go:62-81. *)
Definition rune_error : N := 65533.

(** Go utf8.DecodeRuneInString on a non-empty string: (rune, width). Used below pkg/crd/desc_visitor.go:62-81. *)
Definition decode_rune (s : string) : N * nat :=
  match s with
  | EmptyString => (rune_error, O)
  | String b0 s1 =>
      let x := code b0 in
      let bad := (rune_error, 1%nat) in
      if x <? 128 then (x, 1%nat)
      else if in_range 194 223 x then
        match s1 with
        | String b1 _ => if in_range 128 191 (code b1) then ((x - 192) * 64 + (code b1 - 128), 2%nat) else bad
        | _ => bad
        end
      else if in_range 224 239 x then
        let lo := if x =? 224 then 160 else 128 in
        let hi := if x =? 237 then 159 else 191 in
        match s1 with
        | String b1 (String b2 _) =>
            if in_range lo hi (code b1) && in_range 128 191 (code b2)
            then ((x - 224) * 4096 + (code b1 - 128) * 64 + (code b2 - 128), 3%nat) else bad
        | _ => bad
        end
      else if in_range 240 244 x then
        let lo := if x =? 240 then 144 else 128 in
        let hi := if x =? 244 then 143 else 191 in
        match s1 with
        | String b1 (String b2 (String b3 _)) =>
            if in_range lo hi (code b1) && in_range 128 191 (code b2) && in_range 128 191 (code b3)
            then ((x - 240) * 262144 + (code b1 - 128) * 4096 + (code b2 - 128) * 64 + (code b3 - 128), 4%nat) else bad
        | _ => bad
        end
      else bad
  end.

(** Go utf8.RuneStart: not a continuation byte. Used below pkg/crd/desc_visitor.go:62-81. *)
Definition rune_start (a : ascii) : bool := negb (in_range 128 191 (code a)).

(** Go: s[n], used below pkg/crd/desc_visitor.go:62-81 *)
Fixpoint str_nth (n : nat) (s : string) : ascii :=
  match n, s with
  | _, EmptyString => zero
  | O, String a _ => a
  | S n', String _ s' => str_nth n' s'
  end.

Local Open Scope nat_scope.

(** The backwards search of utf8.DecodeLastRuneInString for the start of the last rune, at most [fuel] positions below
    [start]; when none is found the position below the limit (or 0) is used, as the Go loop leaves it. Go
    utf8.DecodeLastRuneInString, used below pkg/crd/desc_visitor.go:70. *)
Fixpoint find_start (s : string) (start : nat) (fuel : nat) {struct fuel} : nat :=
  match fuel with
  | O => start
  | S fuel' =>
      match start with
      | O => O
      | S p => if rune_start (str_nth p s) then p else find_start s p fuel'
      end
  end.

(** Go utf8.DecodeLastRuneInString on a string of length [n] > 0. Go's loop looks at positions n-2, n-3, n-4 and leaves
    start one below the limit n-4 when all three are continuation bytes; the decoding then cannot end at [n], so the
    result is the same as for the lowest position looked at. Go utf8.DecodeLastRuneInString, used below
    pkg/crd/desc_visitor.go:70. *)
Definition decode_last (s : string) : N * nat :=
  let n := String.length s in
  match n with
  | O => (rune_error, 0)
  | S m =>
      if N.ltb (code (str_nth m s)) 128 then (code (str_nth m s), 1)
      else
        let start := find_start s m 3 in
        let (r, size) := decode_rune (str_drop start s) in
        if start + size =? n then (r, size) else (rune_error, 1)
  end.

(** Go strings.LastIndexFunc; None stands for -1. Every step goes back at least one byte. Called at
    pkg/crd/desc_visitor.go:70 and :75. *)
Fixpoint last_index_fuel (fuel : nat) (f : N -> bool) (s : string) : option nat :=
  match fuel with
  | O => None
  | S fuel' =>
      let n := String.length s in
      match n with
      | O => None
      | S _ =>
          let (r, size) := decode_last s in
          if f r then Some (n - size) else last_index_fuel fuel' f (str_take (n - size) s)
      end
  end.
(** Called at pkg/crd/desc_visitor.go:70 and :75 *)
Definition last_index_func (f : N -> bool) (s : string) : option nat := last_index_fuel (S (String.length s)) f s.

Section Desc.
  (** unicode.Is(unicode.STerm, r) and unicode.Is(unicode.White_Space, r) (desc_visitor.go:83-90): any two predicates. *)
  Variable is_sterm is_space : N -> bool.

  (** pkg/crd/desc_visitor.go:62-80, truncateString; [maxLen] > 0 at the only call. *)
  Definition truncate_string (desc : string) (maxLen : nat) : string :=
    if String.length desc <=? maxLen then desc
    else
      let d := str_take maxLen desc in
      match last_index_func is_sterm d with
      | Some (S n) => str_take (S n + 1) d
      | _ =>
          match last_index_func is_space d with
          | Some (S n) => (str_take (S n) d ++ "...")%string
          | _ => (str_take maxLen d ++ "...")%string
          end
      end.

  (** pkg/crd/desc_visitor.go:40-56, descVisitor.Visit on a node. *)
  Definition desc_visit (maxLen : Z) (s : schema) : schema * option unit :=
    if (maxLen <? 0)%Z then (s, None)
    else if (maxLen =? 0)%Z then (with_kw s (set_k_desc (s_kw s) ""), Some tt)
    else if (maxLen <? Z.of_nat (String.length (k_desc (s_kw s))))%Z
    then (with_kw s (set_k_desc (s_kw s) (truncate_string (k_desc (s_kw s)) (Z.to_nat maxLen))), Some tt)
    else (s, Some tt).

  (** pkg/crd/desc_visitor.go:29-31, TruncateDescription = EditSchema with descVisitor. None: out of fuel. *)
  Definition truncate_description (ord : list string -> list string) (fuel : nat) (maxLen : Z) (s : schema) : option schema :=
    match walk (fun (_ : unit) s (st : unit) => let (s', r) := desc_visit maxLen s in (s', st, r)) (fun _ s st => (s, st)) ord fuel tt s tt with
    | Some (s', _) => Some s'
    | None => None
    end.
End Desc.
