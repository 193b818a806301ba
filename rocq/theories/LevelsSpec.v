(** * What the JSON of the help should say *)

From Coq Require Import List String Ascii Bool Arith.
From Verif Require Import GoLib HelpModel PrettyModel PrettySpec.
From Verif Require Import SchemaModel.
Import ListNotations.
Open Scope string_scope.
Open Scope list_scope.

(** A member of an object. *)
Definition member (j : json) (k : string) (v : json) : Prop := exists l, j = JObj l /\ In (k, v) l.
(** An object has no such member. *)
Definition absent (j : json) (k : string) : Prop := forall v, ~ member j k v.
(** A text that may be left out if it is empty. *)
Definition says (j : json) (k t : string) : Prop := member j k (JStr t) \/ (absent j k /\ t = "").

(** No object, at any depth, has two members of one name; there are no numbers. *)
Inductive proper : json -> Prop :=
| P_null : proper JNull
| P_bool b : proper (JBool b)
| P_str s : proper (JStr s)
| P_arr l : Forall proper l -> proper (JArr l)
| P_obj l : NoDup (map fst l) -> Forall (fun kv => proper (snd kv)) l -> proper (JObj l).

(** The members about an argument. *)
Inductive argument_said : json -> hargument -> Prop :=
| A_plain j t o : member j "type" (JStr t) -> member j "optional" (JBool o) -> absent j "itemType" -> argument_said j (mkHArgument t o None)
| A_items j t o i b : member j "type" (JStr t) -> member j "optional" (JBool o) -> member j "itemType" i -> argument_said i b ->
    argument_said j (mkHArgument t o (Some b)).

(** A field. *)
Record field_said (j : json) (f : field_doc) : Prop := {
  fs_name : member j "name" (JStr (fd_name f));
  fs_argument : argument_said j (fd_argument f);
  fs_summary : member j "summary" (JStr (HelpModel.summary (fd_detail f)));
  fs_details : says j "details" (details (fd_detail f)) }.

(** A marker. *)
Record marker_said (j : json) (m : marker_doc) : Prop := {
  ms_name : member j "name" (JStr (md_name m));
  ms_target : member j "target" (JStr (md_target m));
  ms_summary : member j "summary" (JStr (HelpModel.summary (md_detail m)));
  ms_details : says j "details" (details (md_detail m));
  ms_category : member j "category" (JStr (md_category m));
  ms_deprecated : match md_deprecated m with Some u => member j "deprecatedInFavorOf" (JStr u) | None => absent j "deprecatedInFavorOf" end;
  ms_fields : (exists l, member j "fields" (JArr l) /\ Forall2 field_said l (md_fields m)) \/ (absent j "fields" /\ md_fields m = []) }.

(** A category. *)
Definition category_said (j : json) (c : category_doc) : Prop :=
  member j "category" (JStr (cd_category c)) /\ exists l, member j "markers" (JArr l) /\ Forall2 marker_said l (cd_markers c).

(** What is seen of a category at each level. *)
Definition level_text (level : nat) (c : category_doc) : list ascii :=
  if Nat.eqb level 1 then summary_text (cd_category c) (cd_markers c)
  else details_text (Nat.eqb level 3) (cd_category c) (cd_markers c).
