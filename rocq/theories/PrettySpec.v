(** * What the printed help should look like: as text, character by character.

    No span, no buffer and no list of columns: the text of a table is given by the texts of its cells, the text of a marker by its
    documentation.  Of what is written only the records of HelpModel, and the items of the output of PrettyModel, are used. *)

From Coq Require Import List String Ascii Bool Arith.
From Verif Require Import HelpModel PrettyModel.
Import ListNotations.
Open Scope list_scope.

(** The characters of a text. *)
Notation chars := list_ascii_of_string.

(** What is seen of an output: everything but the escape sequences. *)
Definition visible (o : list item) : list ascii := flat_map (fun x => match x with Chr a => [a] | Esc _ => [] end) o.

(** A span with neither tables nor indentation nor newlines of its own reads as the texts in it, in order. *)
Inductive reads : span -> list ascii -> Prop :=
| R_text : forall t, reads (Text t) (chars t)
| R_writer : forall t, reads (Writer t) (chars t)
| R_dec : forall e s t, reads s t -> reads (Dec e s) t
| R_none : reads (Many []) []
| R_many : forall s l t u, reads s t -> reads (Many l) u -> reads (Many (s :: l)) (t ++ u).

(** A text with [n] tabs before every line that is not empty; [fresh]: at the beginning of a line. *)
Fixpoint indented (n : nat) (fresh : bool) (t : list ascii) : list ascii :=
  match t with
  | [] => []
  | c :: t =>
      if Ascii.eqb c nl then c :: indented n true t
      else (if fresh then repeat tab n else []) ++ c :: indented n false t
  end.

(** The width of column [k] of a table: its widest cell, at most what is allowed, and the padding. *)
Definition col_width (p m : nat) (rows : list (list (list ascii))) (k : nat) : nat :=
  let widest := list_max (map (fun r => List.length (nth k r [])) rows) in
  p + (if Nat.leb m p then widest else Nat.min widest (m - p)).
(** A row whose cells, from column [k] on, are filled up with blanks. *)
Fixpoint row_text (w : nat -> nat) (k : nat) (r : list (list ascii)) : list ascii :=
  match r with
  | [] => [nl]
  | c :: r => c ++ repeat " "%char (w k - List.length c) ++ row_text w (S k) r
  end.
(** A table. *)
Definition table_text (p m : nat) (rows : list (list (list ascii))) : list ascii :=
  flat_map (row_text (col_width p m rows) 0) rows.

(** name=<type>, in brackets if optional, after a separator. *)
Definition field_text (sep : string) (f : field_doc) : list ascii :=
  let body := chars sep ++ chars (fd_name f) ++ chars "=<" ++ chars (type_text (fd_argument f)) ++ chars ">" in
  if is_optional (fd_argument f) then chars "[" ++ body ++ chars "]" else body.
(** A marker has one field without a name. *)
Definition anonymous (m : marker_doc) : Prop := exists f, md_fields m = [f] /\ fd_name f = EmptyString.
(** +name:field=<type>,field=<type>, or +name=<type>. *)
Definition syntax_text (m : marker_doc) : list ascii :=
  chars "+" ++ chars (md_name m) ++
  match md_fields m with
  | [] => []
  | f :: fs =>
      field_text (match fs, fd_name f with [], EmptyString => "" | _, _ => ":" end) f ++ flat_map (field_text ",") fs
  end.
(** What to use instead, if that is known, and the summary. *)
Definition brief (m : marker_doc) : list ascii :=
  match md_deprecated m with
  | Some (String _ _ as u) => chars "(use " ++ chars u ++ chars ") "
  | _ => []
  end ++ chars (summary (md_detail m)).

(** The summary of a group: a heading, and a table of three columns two apart. *)
Definition summary_text (group : string) (ms : list marker_doc) : list ascii :=
  [nl] ++ chars group ++ [nl; nl] ++
  table_text 2 0 (map (fun m => [syntax_text m; chars (md_target m); brief m]) ms) ++ [nl].

(** A text on lines of its own, [n] tabs in. *)
Definition block (n : nat) (t : list ascii) : list ascii := nl :: indented n true t.
(** The same, if wanted and not empty. *)
Definition extra (full : bool) (n : nat) (d : detail) (after : list ascii) : list ascii :=
  match full, details d with
  | true, String _ _ => block n (chars (details d)) ++ after
  | _, _ => []
  end.

(** A marker in detail. *)
Definition marker_text (full : bool) (m : marker_doc) : list ascii :=
  [nl] ++ chars "+" ++ chars (md_name m) ++ chars " " ++ chars (md_target m) ++
  match md_fields m with
  | [] => block 1 (brief m) ++ extra full 1 (md_detail m) [] ++ [nl]
  | f :: fs =>
      match fs, fd_name f with
      | [], EmptyString => block 1 (field_text "" f) ++ chars "  " ++ brief m ++ extra full 2 (md_detail m) [] ++ [nl]
      | _, _ =>
          block 1 (brief m) ++ extra full 1 (md_detail m) [] ++ [nl] ++
          (if full
           then flat_map (fun f => block 1 (field_text "" f) ++ block 2 (chars (summary (fd_detail f))) ++ extra full 2 (fd_detail f) [nl]) (f :: fs) ++ [nl]
           else indented 1 true (table_text 2 0 (map (fun f => [field_text "" f; chars (summary (fd_detail f))]) (f :: fs))))
      end
  end.
(** The details of a group. *)
Definition details_text (full : bool) (group : string) (ms : list marker_doc) : list ascii :=
  [nl] ++ chars group ++ [nl; nl] ++ flat_map (marker_text full) ms.

(** No name of a field begins with a newline. *)
Definition plain_names (ms : list marker_doc) : Prop :=
  forall m f, In m ms -> In f (md_fields m) -> forall t, fd_name f <> String nl t.
