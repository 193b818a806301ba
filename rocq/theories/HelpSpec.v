(** * What the help should list *)

From Coq Require Import List String Ascii Bool Sorting.Sorted.
From Verif Require Import GoLib GoLibFacts RegistryModel RegistrySpec ParseModel HelpModel.
Import ListNotations.
Open Scope string_scope.
Open Scope list_scope.

(** The definition is the last that was registered with its name and target. *)
Definition in_force (ds : list hdef) (d : hdef) : Prop := registered_as ds (d_target d) (d_name d) d.

(** What sort.Slice wants of a comparison. *)
Record strict_weak (less : string -> string -> bool) : Prop := {
  sw_irrefl : forall a, less a a = false;
  sw_trans : forall a b c, less a b = true -> less b c = true -> less a c = true;
  sw_incomparable : forall a b c, less a b = false -> less b c = false -> less a c = false }.

(** The names of types that are shown; pointers are shown as what they point to. *)
Inductive shown : arg -> string -> Prop :=
| shown_int b : shown (AInt b) "int"
| shown_string : shown AStr "string"
| shown_bool : shown ABool "bool"
| shown_any : shown AAny "any"
| shown_raw : shown ARaw "raw"
| shown_slice a s : shown a s -> shown (ASlice a) ("[]" ++ s)
| shown_pointer a s : shown a s -> shown (APtr a) s.

Definition optional_of (a : hargument) : bool := match a with mkHArgument _ o _ => o end.

(** The text about a field of the Go type, if there is any. *)
Definition text_for (h : option dhelp) (field : string) (t : detail) : Prop :=
  match h with
  | Some x => mget String.eqb (h_fields x) field = Some t \/ mget String.eqb (h_fields x) field = None /\ t = mkDetail "" ""
  | None => t = mkDetail "" ""
  end.

Definition word (t : target) : string := match t with DescribesPackage => "package" | DescribesType => "type" | DescribesField => "field" end.

(** The documentation of a definition with this help: its own texts; and for each argument that the marker takes, in the order of their
    names, its type, whether it is optional and the text about the field of the Go type that it sets. *)
Record documents (h : option dhelp) (d : hdef) (m : marker_doc) : Prop := {
  dc_name : md_name m = d_name d;
  dc_target : md_target m = word (d_target d);
  dc_text : match h with
            | Some x => md_detail m = h_detail x /\ md_category m = h_category x /\ md_deprecated m = h_deprecated x
            | None => md_detail m = mkDetail "" "" /\ md_category m = "" /\ md_deprecated m = None
            end;
  dc_sorted : StronglySorted (fun a b => str_ltb (fd_name a) (fd_name b) = true) (md_fields m);
  dc_fields : forall f, In f (md_fields m) -> exists g, In (fd_name f, g) (d_fields (p_defn (d_payload d))) /\
    optional_of (fd_argument f) = f_optional g /\ (forall s, shown (f_arg g) s -> type_string (fd_argument f) = Some s) /\ text_for h (f_name g) (fd_detail f);
  dc_all : forall n g, In (n, g) (d_fields (p_defn (d_payload d))) -> exists f, In f (md_fields m) /\ fd_name f = n }.

(** The parts of a name between its colons. *)
Inductive parts : string -> list string -> Prop :=
| parts_one s : has_char ":" s = false -> parts s [s]
| parts_more s r l : has_char ":" s = false -> parts r l -> parts (s ++ ":" ++ r) (s :: l).

(** The options: first by generator, from the last, then by rule, from the first. *)
Inductive option_of : string -> string -> string -> Prop :=
| op_generator g : parts g [g] -> option_of g g ""
| op_rule n o r : parts n [o; r] -> option_of n "" r
| op_generator_rule n o g r : parts n [o; g; r] -> option_of n g r.
