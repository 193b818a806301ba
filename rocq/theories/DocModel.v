(** * Model of description extraction from Go comments: pkg/markers/zip.go extractDoc. Definitions only.

    Comments are the texts go/ast has: "//..." or "/*...*/". Text is bytes: white space beyond ASCII is not modelled. *)

From Coq Require Import List String Ascii Bool Arith.
From Verif Require Import GoLib.
Import ListNotations.
Open Scope string_scope.
Open Scope list_scope.

Definition nl : ascii := ascii_of_nat 10.

(** Go: strings.TrimLeftFunc and TrimRightFunc, of which strings.TrimSpace is made (pkg/markers/zip.go:85) *)
Fixpoint trim_left (p : ascii -> bool) (s : string) : string :=
  match s with
  | EmptyString => EmptyString
  | String a s' => if p a then trim_left p s' else s
  end.
(** Go: strings.TrimLeftFunc and TrimRightFunc, of which strings.TrimSpace is made (pkg/markers/zip.go:85) *)
Fixpoint trim_right (p : ascii -> bool) (s : string) : string :=
  match s with
  | EmptyString => EmptyString
  | String a s' =>
      match trim_right p s' with
      | EmptyString => if p a then EmptyString else String a EmptyString
      | t => String a t
      end
  end.

(** Go: unicode.IsSpace on ASCII. Below strings.TrimSpace (pkg/markers/zip.go:85). *)
Definition is_space (a : ascii) : bool := let n := nat_of_ascii a in Nat.eqb n 32 || (Nat.leb 9 n && Nat.leb n 13).
(** Go: go/ast isWhitespace *)
Definition is_white (a : ascii) : bool := let n := nat_of_ascii a in Nat.eqb n 32 || Nat.eqb n 9 || Nat.eqb n 10 || Nat.eqb n 13.
(** Go: strings.TrimSpace. Called at pkg/markers/zip.go:85 and pkg/markers/collect.go:212. *)
Definition trim_space (s : string) : string := trim_right is_space (trim_left is_space s).

(** pkg/markers/collect.go:229-238 (comment[0:2] panics on shorter texts, which go/ast does not have) *)
Definition is_marker_comment (c : string) : bool :=
  has_prefix "//" c && match trim_space (str_drop 2 c) with String a _ => Ascii.eqb a "+" | EmptyString => false end.

(** ** go/ast CommentGroup.Text *)

Definition lower_or_digit (a : ascii) : bool :=
  let n := nat_of_ascii a in (Nat.leb 97 n && Nat.leb n 122) || (Nat.leb 48 n && Nat.leb n 57).
(** The test of the directive names in go/ast, below CommentGroup.Text (pkg/markers/zip.go:72) *)
Fixpoint all_chars (p : ascii -> bool) (s : string) : bool :=
  match s with EmptyString => true | String a s' => p a && all_chars p s' end.
(** Go: go/ast isDirective *)
Definition is_directive (c : string) : bool :=
  has_prefix "line " c || has_prefix "extern " c || has_prefix "export " c ||
  match str_index c ":" with
  | None => false
  | Some colon =>
      Nat.ltb 0 colon && all_chars lower_or_digit (str_take colon c) &&
      match str_drop (colon + 1) c with EmptyString => false | String b _ => lower_or_digit b end
  end.

(** Go: the lines that CommentGroup.Text takes from one comment. Below CommentGroup.Text (pkg/markers/zip.go:72). *)
Definition comment_lines (c : string) : list string :=
  let body :=
    if has_prefix "/*" c then Some (str_take (String.length c - 4) (str_drop 2 c))
    else match str_drop 2 c with
         | EmptyString => Some EmptyString
         | String a rest =>
             if Ascii.eqb a " " then Some rest
             else if is_directive (String a rest) then None else Some (String a rest)
         end in
  match body with
  | None => []
  | Some b => map (trim_right is_white) (split_char nl b)
  end.

(** Go: removal of leading blank lines and of repeated ones; [prev] is the last line kept, if any. Below
    CommentGroup.Text (pkg/markers/zip.go:72). *)
Fixpoint collapse (prev : option string) (ls : list string) : list string :=
  match ls with
  | [] => []
  | l :: rest =>
      if negb (String.eqb l "") || match prev with Some p => negb (String.eqb p "") | None => false end
      then l :: collapse (Some l) rest
      else collapse prev rest
  end.
(** Go: CommentGroup.Text. Called at pkg/markers/zip.go:72. *)
Definition group_text (cs : list string) : string :=
  let ls := collapse None (flat_map comment_lines cs) in
  join (String nl "")
    (match ls with
     | [] => []
     | _ => if negb (String.eqb (last ls "") "") then ls ++ [""] else ls
     end).

(** ** pkg/markers/zip.go:30-120 *)

(** pkg/markers/zip.go:80-118; [code]: insideCodeBlock *)
Fixpoint doc_lines (code : bool) (ls : list string) : list string :=
  match ls with
  | [] => []
  | line :: rest =>
      let code := if has_prefix "```" line || has_prefix "~~~" line then negb code else code in
      if negb code && has_prefix "TODO" line then doc_lines code rest
      else if negb code && has_prefix "---" line then []
      else line :: doc_lines code rest
  end.

(** pkg/markers/zip.go:48-120 *)
Definition extract_doc (docs : option (list string)) : string :=
  match docs with
  | None => ""
  | Some docs =>
      let out := filter (fun c => negb (is_marker_comment c)) docs in
      let asterisk := existsb (has_prefix "/*") out in
      let ls := split_char nl (group_text out) in
      let ls := if String.eqb (last ls "") "" then removelast ls else ls in
      join (String nl "") (doc_lines false (map (fun l => if asterisk then trim_space l else l) ls))
  end.

(** pkg/markers/zip.go:31-46: which comments document a node *)
Inductive docced :=
| DField (doc : option (list string))
| DFile (doc : option (list string))
| DGenDecl (doc : option (list string))
| DTypeSpec (doc : option (list string)) (decl_has_paren : bool) (decl_doc : option (list string)).
(** pkg/markers/zip.go:31-46 *)
Definition docs_of (n : docced) : option (list string) :=
  match n with
  | DField d | DFile d | DGenDecl d => d
  | DTypeSpec d paren decl => match d with Some _ => d | None => if paren then None else decl end
  end.
