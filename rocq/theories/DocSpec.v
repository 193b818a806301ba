(** * What a description is. *)
From Coq Require Import List String Ascii Bool Arith Sorting.Sorted.
From Verif Require Import GoLib DocModel.
Import ListNotations.
Open Scope string_scope.
Open Scope list_scope.

Definition all_in (p : ascii -> bool) (s : string) : Prop := forall a x y, s = (x ++ String a y)%string -> p a = true.

(** White space removed at the end. *)
Definition stripped (b l : string) : Prop := exists w, b = (l ++ w)%string /\ all_in is_white w /\ forall x a, l = (x ++ String a "")%string -> is_white a = false.

(** Compiler directives such as go:generate. *)
Definition directive (b : string) : Prop :=
  (exists t, b = "line " ++ t \/ b = "extern " ++ t \/ b = "export " ++ t)%string \/
  exists w x t, b = (w ++ ":" ++ String x t)%string /\ w <> "" /\ all_in lower_or_digit w /\ lower_or_digit x = true.

(** The lines of text of a comment. *)
Inductive text_of : string -> list string -> Prop :=
| text_space b l : stripped b l -> text_of ("// " ++ b) [l]
| text_plain b l : has_prefix " " b = false -> ~ directive b -> stripped b l -> text_of ("//" ++ b) [l]
| text_directive b : has_prefix " " b = false -> directive b -> text_of ("//" ++ b) []
| text_block bs ls : bs <> [] -> (forall b, In b bs -> has_char nl b = false) -> Forall2 stripped bs ls -> text_of ("/*" ++ join (String nl "") bs ++ "*/") ls.

(** A comment that is a marker. *)
Definition marker_line (b : string) : Prop := exists w t, b = (w ++ "+" ++ t)%string /\ all_in is_space w.
Definition marker (c : string) : Prop := exists b, c = ("//" ++ b)%string /\ marker_line b.

(** Comments as go/ast has them. *)
Definition comment (c : string) : Prop :=
  (exists b, c = ("//" ++ b)%string /\ has_char nl b = false) \/ (exists b, c = ("/*" ++ b ++ "*/")%string).

(** ** Lines kept, by position *)
Definition fence (l : string) : bool := has_prefix "```" l || has_prefix "~~~" l.
(** A line is code if it follows (or is) an odd number of fences. *)
Definition in_code (ls : list string) (i : nat) : Prop := Nat.odd (List.length (filter fence (firstn (S i) ls))) = true.
Definition is_todo (ls : list string) (i : nat) : Prop := ~ in_code ls i /\ has_prefix "TODO" (nth i ls "") = true.
Definition is_end (ls : list string) (i : nat) : Prop := ~ in_code ls i /\ has_prefix "---" (nth i ls "") = true.
Definition kept (ls : list string) (i : nat) : Prop := i < List.length ls /\ ~ is_todo ls i /\ forall j, j <= i -> ~ is_end ls j.

(** ** Blank lines *)

(** [spaced raw ls]: paragraphs of [raw] are kept, what separates them becomes one blank line, blank lines at the ends go. *)
Definition paragraph (p : list string) : Prop := p <> [] /\ forall l, In l p -> l <> "".
Inductive spaced : list string -> list string -> Prop :=
| spaced_end k : spaced (repeat "" k) []
| spaced_last k p m : paragraph p -> spaced (repeat "" k ++ p ++ repeat "" m) p
| spaced_more k p raw ls : paragraph p -> ls <> [] -> spaced raw ls -> spaced (repeat "" k ++ p ++ "" :: raw) (p ++ "" :: ls).

(** Comments that are not markers. *)
Inductive without_markers : list string -> list string -> Prop :=
| without_nil : without_markers [] []
| without_skip c cs out : marker c -> without_markers cs out -> without_markers (c :: cs) out
| without_keep c cs out : ~ marker c -> without_markers cs out -> without_markers (c :: cs) (c :: out).
