(** * helpgen, which writes the Help methods from godoc: cmd/helpgen/main.go. Definitions only.

    What EachType finds in a package is given, [None] if collecting fails; so is what gofmt, opening and writing do.  Text is bytes: those
    from 128 up are kept by [go_quote] as they are, which is exact for UTF-8 that prints.

    Not modelled: the command line, which is like that of MainModel, and the usage. *)

From Coq Require Import List String Ascii Bool Arith.
From Verif Require Import GoLib DocModel ManifestModel.
Import ListNotations.
Open Scope string_scope.
Open Scope list_scope.

(** fmt's q verb on strings: strconv.Quote, called at cmd/helpgen/main.go:137 and :141 *)
Definition go_hex (n : nat) : ascii := ascii_of_nat (if Nat.ltb n 10 then 48 + n else 87 + n).
(** The escapes of one letter in strconv.Quote, below cmd/helpgen/main.go:141 *)
Definition go_escape (n : nat) : option nat :=
  match n with
  | 7 => Some 97 | 8 => Some 98 | 12 => Some 102 | 10 => Some 110 | 13 => Some 114 | 9 => Some 116 | 11 => Some 118
  | 34 => Some 34 | 92 => Some 92
  | _ => None
  end.
(** strconv.Quote of one byte, below cmd/helpgen/main.go:141 *)
Definition go_quote_one (a : ascii) (s : string) : string :=
  let n := nat_of_ascii a in
  match go_escape n with
  | Some e => String (ascii_of_nat 92) (String (ascii_of_nat e) s)
  | None =>
      if Nat.ltb n 32 || Nat.eqb n 127
      then String (ascii_of_nat 92) (String "x" (String (go_hex (n / 16)) (String (go_hex (n mod 16)) s)))
      else String a s
  end.
(** strconv.Quote without the quotes, below cmd/helpgen/main.go:141 *)
Fixpoint go_quote_body (s : string) : string :=
  match s with EmptyString => "" | String a s' => go_quote_one a (go_quote_body s') end.
(** strconv.Quote, below cmd/helpgen/main.go:141 *)
Definition go_quote (s : string) : string := (String (ascii_of_nat 34) (go_quote_body s) ++ String (ascii_of_nat 34) "")%string.

(** strings.SplitN(s, c, 2), called at cmd/helpgen/main.go:74 and :76: the first part, and the second if there is one *)
Fixpoint cut (c : ascii) (s : string) : string * option string :=
  match s with
  | EmptyString => ("", None)
  | String a s' => if Ascii.eqb a c then ("", Some s') else let '(x, y) := cut c s' in (String a x, y)
  end.

(** godocToDetails, cmd/helpgen/main.go:73-89 *)
Definition godoc_to_details (name doc : string) : string * string :=
  let '(first, others) := cut nl doc in
  let summary :=
    let '(word, words) := cut " " first in
    if String.eqb word name then match words with Some s => s | None => "" end else first in
  (summary, match others with Some s => trim_space s | None => "" end).

(** FieldInfo, pkg/markers/zip.go:140-154 *)
Record hfield := mkHField { hf_name : string; hf_doc : string }.
(** TypeInfo with the categories of its values of the marker, pkg/markers/zip.go:157-177 and cmd/helpgen/main.go:69-71 *)
Record hinfo := mkHInfo { hi_name : string; hi_doc : string; hi_markers : list string; hi_fields : list hfield }.

(** A newline, in cmd/helpgen/main.go:39-66 *)
Definition eol : string := String nl "".
(** cmd/helpgen/main.go:135-138 *)
Definition field_text (f : hfield) : string :=
  let '(summary, details) := godoc_to_details (hf_name f) (hf_doc f) in
  (go_quote (hf_name f) ++ ": {" ++ eol ++ "Summary: " ++ go_quote summary ++ "," ++ eol ++ " Details: " ++ go_quote details ++ "," ++ eol ++ "}," ++ eol)%string.
(** funcBlock, cmd/helpgen/main.go:53-66 and :140-141 *)
Definition block (name category doc fields : string) : string :=
  let '(summary, details) := godoc_to_details name doc in
  (eol ++ "func (" ++ name ++ ") Help() *markers.DefinitionHelp {" ++ eol ++
   "	return &markers.DefinitionHelp{" ++ eol ++
   "		Category: " ++ go_quote category ++ "," ++ eol ++
   "		DetailedHelp: markers.DetailedHelp{" ++ eol ++
   "			Summary: " ++ go_quote summary ++ "," ++ eol ++
   "			Details: " ++ go_quote details ++ "," ++ eol ++
   "		}," ++ eol ++
   "		FieldHelp: map[string]markers.DetailedHelp{" ++ eol ++
   "			" ++ fields ++ eol ++
   "		}," ++ eol ++
   "	}" ++ eol ++
   "}" ++ eol)%string.
(** The callback, cmd/helpgen/main.go:128-142 *)
Definition add_type (by_type : list (string * string)) (i : hinfo) : list (string * string) :=
  match hi_markers i with
  | [] => by_type
  | category :: _ =>
      mset String.eqb by_type (hi_name i) (block (hi_name i) category (hi_doc i) (String.concat "" (map field_text (hi_fields i))))
  end.

(** The header, cmd/helpgen/main.go:39-52 *)
Definition head_text (pkg headerText : string) : string :=
  (eol ++ "//go:build !ignore_autogenerated" ++ eol ++ eol ++ headerText ++ eol ++ eol ++
   "// Code generated by helpgen. DO NOT EDIT." ++ eol ++ eol ++
   "package " ++ pkg ++ eol ++ eol ++
   "import (" ++ eol ++ "	" ++ go_quote "sigs.k8s.io/controller-tools/pkg/markers" ++ eol ++ ")" ++ eol ++ eol)%string.

(** A root: Name, and what EachType finds; cmd/helpgen/main.go:126-144 *)
Record hroot := mkHRoot { hr_name : string; hr_types : option (list hinfo) }.

(** What happens to a root: its file is written with a text, or an error is added; cmd/helpgen/main.go:167-187 *)
Inductive hevent := HWrote (text : string) | HUnformatted | HNotOpened | HNotWritten | HShort.
(** Generate's result, cmd/helpgen/main.go:115-190 *)
Inductive houtcome := HDone | HNoHeader | HCollect | HPanic.

Section Generate.
(** The order of ranging over byType; format.Source; Open; how much Write writes, [None] on an error. *)
Variable order : list (string * string) -> list (string * string).
Variable gofmt : string -> option string.
Variable opens : hroot -> bool.
Variable writes : hroot -> string -> option nat.

(** The text before gofmt, cmd/helpgen/main.go:150-167 *)
Definition file_text (name headerText : string) (by_type : list (string * string)) : string :=
  (head_text name headerText ++
   String.concat "" (map (fun t => (match mget String.eqb by_type t with Some b => b | None => "" end ++ eol)%string)
     (sort_strings (map fst (order by_type)))))%string.

(** cmd/helpgen/main.go:167-187 *)
Definition write_file (r : hroot) (text : string) : list hevent :=
  let '(es, out) := match gofmt text with Some t => ([], t) | None => ([HUnformatted], text) end in
  es ++
  if opens r then
    match writes r out with
    | None => [HNotWritten]
    | Some n => HWrote (str_take n out) :: if Nat.ltb n (String.length out) then [HShort] else []
    end
  else [HNotOpened].

(** The loop over the roots, cmd/helpgen/main.go:126-189: what happened to each root, up to the first that ends it *)
Fixpoint help_roots (headerText : string) (rs : list hroot) : list (list hevent) * houtcome :=
  match rs with
  | [] => ([], HDone)
  | r :: rs' =>
      match hr_types r with
      | None => ([], HCollect)
      | Some infos =>
          match fold_left add_type infos [] with
          | [] => let '(es, o) := help_roots headerText rs' in ([] :: es, o)
          | by_type =>
              if String.eqb headerText "" then ([], HPanic)
              else let '(es, o) := help_roots headerText rs' in (write_file r (file_text (hr_name r) headerText by_type) :: es, o)
          end
      end
  end.

(** Generate, cmd/helpgen/main.go:115-190; the header: [None] no file was given, [Some None] it cannot be read *)
Definition help_generate (header : option (option string)) (year : string) (rs : list hroot) : list (list hevent) * houtcome :=
  match header with
  | Some None => ([], HNoHeader)
  | Some (Some text) => help_roots (replace_all " YEAR" year text) rs
  | None => help_roots (replace_all " YEAR" year "") rs
  end.
End Generate.
