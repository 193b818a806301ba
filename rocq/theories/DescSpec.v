(** * Specification of description truncation. *)

From Coq Require Import List String Ascii Bool NArith.
From Verif Require Import GoLib SchemaModel SchemaFacts.
Import ListNotations.
Open Scope string_scope.

(** [s'] is [s] in which each node's description [d] became some [d'] with [R d d'], and nothing else changed. *)
Definition only_descriptions_change (R : string -> string -> Prop) (s s' : schema) : Prop :=
  exists f : kw -> kw,
    (forall k, exists d, f k = set_k_desc k d /\ R (k_desc k) d) /\ s' = map_kw f s.

(** A description that fits is kept; a longer one becomes a non-empty prefix of at most [n] bytes, perhaps with "...". *)
Definition truncated (n : nat) (d d' : string) : Prop :=
  (String.length d <= n -> d' = d) /\
  (n < String.length d -> exists p, p <> "" /\ has_prefix p d = true /\ String.length p <= n /\
     (d' = p \/ d' = (p ++ "...")%string)).

(** Position [i] of [s] holds a byte satisfying [f]. *)
Fixpoint holds_at (f : N -> bool) (s : string) (i : nat) : Prop :=
  match s, i with
  | EmptyString, _ => False
  | String a _, O => f (N_of_ascii a) = true
  | String _ s', S i' => holds_at f s' i'
  end.
(** [i] is the greatest position with 0 < i < n that satisfies [f]. *)
Definition last_inside (f : N -> bool) (s : string) (n i : nat) : Prop :=
  0 < i < n /\ holds_at f s i /\ forall j, i < j < n -> ~ holds_at f s j.
Definition none_inside (f : N -> bool) (s : string) (n : nat) : Prop := forall j, 0 < j < n -> ~ holds_at f s j.

Definition all_ascii (s : string) : Prop := forall a, In a (list_ascii_of_string s) -> (N_of_ascii a < 128)%N.

(** Well-formed UTF-8 (Unicode, table 3-7). *)
Inductive utf8 : string -> Prop :=
| u_nil : utf8 ""
| u_1 a s : (N_of_ascii a < 128)%N -> utf8 s -> utf8 (String a s)
| u_2 a b s : (194 <= N_of_ascii a <= 223)%N -> (128 <= N_of_ascii b <= 191)%N -> utf8 s -> utf8 (String a (String b s))
| u_3 a b c s : (224 <= N_of_ascii a <= 239)%N -> (128 <= N_of_ascii b <= 191)%N -> (128 <= N_of_ascii c <= 191)%N ->
    (N_of_ascii a = 224%N -> (160 <= N_of_ascii b)%N) -> (N_of_ascii a = 237%N -> (N_of_ascii b <= 159)%N) ->
    utf8 s -> utf8 (String a (String b (String c s)))
| u_4 a b c d s : (240 <= N_of_ascii a <= 244)%N -> (128 <= N_of_ascii b <= 191)%N -> (128 <= N_of_ascii c <= 191)%N ->
    (128 <= N_of_ascii d <= 191)%N ->
    (N_of_ascii a = 240%N -> (144 <= N_of_ascii b)%N) -> (N_of_ascii a = 244%N -> (N_of_ascii b <= 143)%N) ->
    utf8 s -> utf8 (String a (String b (String c (String d s)))).
