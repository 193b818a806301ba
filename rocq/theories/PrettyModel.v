(** * The layout of the printed help: pkg/genall/help/pretty (table.go, print.go, help.go). Definitions only.

    What is written is a list of bytes and of escape sequences; the bytes of an escape sequence (github.com/fatih/color: none of them is a
    newline) are one item, and none is written if colours are off.  A text is a Go string, that is bytes: lengths are in bytes.  Writing
    never fails (the writers are buffers and the terminal); [None] is a panic.  A table is what StartRow, Column, EndRow and SkipRow have made
    of it: its rows, and whether each counts for the widths.  The type of a field whose slice has no item, where TypeString panics, is here
    empty: ForArgument makes no such argument (C54).

    Not modelled: the caches of fromWriter and of the widths (what they keep is what would be computed again), the swap of color.Output. *)

From Coq Require Import List String Ascii Bool Arith.
From Verif Require Import HelpModel.
Import ListNotations.
Open Scope string_scope.
Open Scope list_scope.

(** A byte, or an escape sequence: what print.go:111-113 and print.go:211-212 of pkg/genall/help/pretty write *)
Inductive item := Chr (a : ascii) | Esc (e : string).
(** io.Writer, pkg/genall/help/pretty/print.go:18-25 *)
Notation out := (list item).

(** Span, pkg/genall/help/pretty/print.go:18-25: Text (108), fromWriter (156-160), Table (30-35, with whether each row was ended by EndRow),
    indented (117-120), decorated (200-203), SpanWriter (218-220), lines (244-247) *)
Inductive span :=
| Text (t : string)
| Writer (t : string)
| Tab (padding max_width : nat) (rows : list (bool * list span))
| Ind (amount : nat) (content : span)
| Dec (attributes : string) (content : span)
| Many (contents : list span)
| Lines (amount : nat) (content : option span).

(** "\n", pkg/genall/help/pretty/print.go:87, 129, 132 *)
Definition nl : ascii := "010"%char.
(** "\t", pkg/genall/help/pretty/print.go:279 *)
Definition tab : ascii := "009"%char.

(** w.Write([]byte(t)), pkg/genall/help/pretty/print.go:111-113 *)
Definition bytes_of (t : string) : out := map Chr (list_ascii_of_string t).

(** columnPadding, pkg/genall/help/pretty/print.go:278 *)
Definition column_padding : out := repeat (Chr " ") 71.
(** indentPadding, pkg/genall/help/pretty/print.go:279 *)
Definition indent_padding : out := repeat (Chr tab) 35.
(** linesPadding, pkg/genall/help/pretty/print.go:280 *)
Definition lines_padding : out := repeat (Chr nl) 35.

(** writePadding, pkg/genall/help/pretty/print.go:286-304 *)
Definition write_padding (typ : out) (amt : nat) : out :=
  if Nat.leb amt (List.length typ) then firstn amt typ
  else List.concat (repeat typ (amt / List.length typ)) ++ firstn (amt mod List.length typ) typ.

(** AddRowSizes, pkg/genall/help/pretty/table.go:29-38: the second loop, over the cells of the row *)
Fixpoint append_sizes (cols : list (list nat)) (sizes : list nat) : list (list nat) :=
  match cols, sizes with
  | c :: cols, s :: sizes => (c ++ [s]) :: append_sizes cols sizes
  | cols, _ => cols
  end.
(** AddRowSizes, pkg/genall/help/pretty/table.go:29-38 *)
Definition add_row_sizes (cols : list (list nat)) (sizes : list nat) : list (list nat) :=
  let cols := if Nat.ltb (List.length cols) (List.length sizes) then cols ++ repeat [] (List.length sizes - List.length cols) else cols in
  append_sizes cols sizes.
(** ColumnWidths, pkg/genall/help/pretty/table.go:42-64; a MaxWidth below the padding gives 0 instead of a negative number *)
Definition column_widths (padding max_width : nat) (cols : list (list nat)) : list nat :=
  let widths := map (fun sizes => fold_left (fun m s => if Nat.ltb m s then s else m) sizes 0) cols in
  let actual := max_width - padding in
  map (fun w => (if Nat.ltb 0 actual && Nat.ltb actual w then actual else w) + padding) widths.
(** The widths once all rows are there, pkg/genall/help/pretty/print.go:44-51 and 65-67 *)
Definition widths_of (padding max_width : nat) (sizes : list (list nat)) : list nat :=
  column_widths padding max_width (fold_left add_row_sizes sizes []).

(** VisualLength, pkg/genall/help/pretty/print.go:95-105, 110, 122, 162-171, 205, 222-228, 249-254 *)
Fixpoint width (s : span) : nat :=
  match s with
  | Text t => String.length t
  | Writer t => String.length t
  | Tab p m rows =>
      fold_left Nat.add (widths_of p m (flat_map (fun r => match r with (true, cells) => [map width cells] | (false, _) => [] end) rows)) 0
  | Ind _ c => width c
  | Dec _ c => width c
  | Many l => fold_left (fun n s => n + s) (map width l) 0
  | Lines _ None => 0
  | Lines _ (Some c) => width c
  end.

(** bytes.Split(…, "\n"), pkg/genall/help/pretty/print.go:129 *)
Fixpoint split_lines (o : out) : list out :=
  match o with
  | [] => [[]]
  | x :: o =>
      match x, split_lines o with
      | Chr a, l :: ls => if Ascii.eqb a nl then [] :: l :: ls else (x :: l) :: ls
      | Esc _, l :: ls => (x :: l) :: ls
      | _, [] => []
      end
  end.
(** indented.WriteTo after its content, pkg/genall/help/pretty/print.go:129-147: one line *)
Definition indent_line (amount : nat) (line : out) : out :=
  match line with [] => [] | _ => write_padding indent_padding amount ++ line end.
(** pkg/genall/help/pretty/print.go:130-146: the lines after the first, each after a newline *)
Definition write_lines (amount : nat) (ls : list out) : out :=
  match ls with
  | [] => []
  | l :: ls => indent_line amount l ++ flat_map (fun l => Chr nl :: indent_line amount l) ls
  end.

(** One write after another, pkg/genall/help/pretty/print.go:230-235 *)
Fixpoint all_of (l : list (option out)) : option out :=
  match l with
  | [] => Some []
  | Some o :: l => option_map (app o) (all_of l)
  | None :: _ => None
  end.
(** A row of a table, pkg/genall/help/pretty/print.go:70-90: its cells written, and their lengths; [None] where t.colSizes[colInd] is out of range *)
Fixpoint write_row (widths : list nat) (cells : list (option out * nat)) {struct cells} : option out :=
  match cells with
  | [] => Some [Chr nl]
  | (o, n) :: cells =>
      match widths with
      | [] => None
      | w :: widths =>
          all_of [o; Some (if Nat.ltb n w then write_padding column_padding (w - n) else []); write_row widths cells]
      end
  end.

(** WriteTo, pkg/genall/help/pretty/print.go:64-93, 111-114, 123-148, 172-181, 206-215, 229-236, 255-265; [colours]: color.NoColor is not set *)
Fixpoint write (colours : bool) (s : span) : option out :=
  match s with
  | Text t => Some (bytes_of t)
  | Writer t => Some (bytes_of t)
  | Tab p m rows =>
      let widths := widths_of p m (flat_map (fun r => match r with (true, cells) => [map width cells] | (false, _) => [] end) rows) in
      all_of (map (fun r => match r with (_, cells) => write_row widths (map (fun c => (write colours c, width c)) cells) end) rows)
  | Ind n c => match write colours c with Some o => Some (write_lines n (split_lines o)) | None => None end
  | Dec e c =>
      match write colours c with
      | Some o => Some (if colours then Esc e :: o ++ [Esc "0"] else o)
      | None => None
      end
  | Many l => all_of (map (write colours) l)
  | Lines n None => Some (write_padding lines_padding n)
  | Lines n (Some c) => match write colours c with Some o => Some (write_padding lines_padding n ++ o) | None => None end
  end.

(** Newlines, pkg/genall/help/pretty/print.go:268-270 *)
Definition newlines (n : nat) : span := Lines n None.
(** Line, pkg/genall/help/pretty/print.go:273-275 *)
Definition line (s : span) : span := Lines 1 (Some s).

(** headingStyle, pkg/genall/help/pretty/help.go:12 *)
Definition heading_style : span -> span := Dec "1;4".
(** markerNameStyle, pkg/genall/help/pretty/help.go:13 *)
Definition marker_name_style : span -> span := Dec "1".
(** fieldSummaryStyle, pkg/genall/help/pretty/help.go:14 *)
Definition field_summary_style : span -> span := Dec "32;3".
(** markerTargetStyle, pkg/genall/help/pretty/help.go:15 *)
Definition marker_target_style : span -> span := Dec "2".
(** fieldDetailStyle, pkg/genall/help/pretty/help.go:16 *)
Definition field_detail_style : span -> span := Dec "3;32".
(** deprecatedStyle, pkg/genall/help/pretty/help.go:17 *)
Definition deprecated_style : span -> span := Dec "9".

(** MarkerDoc.Empty, pkg/genall/help/types.go:99-101 *)
Definition is_empty (m : marker_doc) : bool := match md_fields m with [] => true | _ => false end.
(** MarkerDoc.AnonymousField, pkg/genall/help/types.go:105-107 *)
Definition is_anonymous (m : marker_doc) : bool := match md_fields m with [f] => String.eqb (fd_name f) "" | _ => false end.
(** Argument.Optional, pkg/genall/help/types.go:39 *)
Definition is_optional (a : hargument) : bool := match a with mkHArgument _ o _ => o end.
(** TypeString, pkg/genall/help/types.go:45-65 *)
Definition type_text (a : hargument) : string := match type_string a with Some t => t | None => "" end.

(** fieldSyntaxHelp, pkg/genall/help/pretty/help.go:124-135 *)
Definition field_syntax_help (f : field_doc) (sep : string) : span :=
  if is_optional (fd_argument f)
  then Writer ("[" ++ sep ++ fd_name f ++ "=<" ++ type_text (fd_argument f) ++ ">]")%string
  else Writer (sep ++ fd_name f ++ "=<" ++ type_text (fd_argument f) ++ ">")%string.
(** markerName, pkg/genall/help/pretty/help.go:138-143 *)
Definition marker_name (m : marker_doc) : span :=
  match md_deprecated m with
  | Some _ => deprecated_style (Text ("+" ++ md_name m)%string)
  | None => marker_name_style (Text ("+" ++ md_name m)%string)
  end.
(** pkg/genall/help/pretty/help.go:165-168 *)
Fixpoint fields_syntax (style : span -> span) (sep : string) (fs : list field_doc) : list span :=
  match fs with
  | [] => []
  | f :: fs => style (field_syntax_help f sep) :: fields_syntax style "," fs
  end.
(** MarkerSyntaxHelp, pkg/genall/help/pretty/help.go:146-171 *)
Definition marker_syntax_help (m : marker_doc) : span :=
  if is_empty m then Many [marker_name m]
  else Many (marker_name m ::
         fields_syntax (match md_deprecated m with Some _ => deprecated_style | None => field_summary_style end)
           (if is_anonymous m then "" else ":") (md_fields m)).

(** The summary of a marker, pkg/genall/help/pretty/help.go:34-40 and 64-70 *)
Definition summary_span (m : marker_doc) : span :=
  Many ((match md_deprecated m with
         | Some u => if Nat.ltb 0 (String.length u)
                     then [marker_name_style (Text "(use "); marker_name_style (Text u); marker_name_style (Text ") ")]
                     else []
         | None => []
         end) ++ [Text (summary (md_detail m))]).

(** MarkersSummary, pkg/genall/help/pretty/help.go:21-50 *)
Definition markers_summary (group : string) (ms : list marker_doc) : span :=
  Many [Text (String nl ""); heading_style (Text group); Text (String nl (String nl ""));
        Tab 2 0 (map (fun m => (true, [marker_syntax_help m; marker_target_style (Text (md_target m)); summary_span m])) ms);
        Text (String nl "")].

(** len(x) > 0 && fullDetail, pkg/genall/help/pretty/help.go:74, 84, 94 *)
Definition has_details (full : bool) (d : detail) : bool := Nat.ltb 0 (String.length (details d)) && full.

(** One field in full, pkg/genall/help/pretty/help.go:92-97 *)
Definition field_details (full : bool) (f : field_doc) : list span :=
  Ind 1 (line (field_detail_style (field_syntax_help f ""))) ::
  Ind 2 (line (Text (summary (fd_detail f)))) ::
  (if has_details full (fd_detail f) then [Ind 2 (line (Text (details (fd_detail f)))); newlines 1] else []).

(** One marker, pkg/genall/help/pretty/help.go:60-113 *)
Definition marker_details (full : bool) (m : marker_doc) : list span :=
  [line (marker_name m); Text " "; marker_target_style (Text (md_target m))] ++
  (if is_anonymous m then []
   else Ind 1 (line (summary_span m)) ::
        (if has_details full (md_detail m) then [Ind 1 (line (Text (details (md_detail m))))] else [])) ++
  (if is_anonymous m then
     map (fun f => Ind 1 (line (field_detail_style (field_syntax_help f "")))) (firstn 1 (md_fields m)) ++
     [Text "  "; summary_span m] ++
     (if has_details full (md_detail m) then [Ind 2 (line (Text (details (md_detail m))))] else []) ++
     [newlines 1]
   else if negb (is_empty m) then
     newlines 1 ::
     (if full then flat_map (field_details full) (md_fields m) ++ [newlines 1]
      else [Ind 1 (Tab 2 0 (map (fun f => (true, [field_detail_style (field_syntax_help f ""); Text (summary (fd_detail f))])) (md_fields m)))])
   else [newlines 1]).

(** MarkersDetails, pkg/genall/help/pretty/help.go:53-117 *)
Definition markers_details (full : bool) (group : string) (ms : list marker_doc) : span :=
  Many ([line (heading_style (Text group)); newlines 2] ++ flat_map (marker_details full) ms).

(** helpForLevels, cmd/controller-gen/main.go:238-268, summaryHelp, detailedHelp and fullHelp,
    levels 1 to 3: the span of each category with a name *)
Definition help_span (level : nat) (c : category_doc) : span :=
  match level with
  | 1 => markers_summary (cd_category c) (cd_markers c)
  | 2 => markers_details false (cd_category c) (cd_markers c)
  | _ => markers_details true (cd_category c) (cd_markers c)
  end.
