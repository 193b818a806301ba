(** * Model of the parts of text/scanner and strconv that marker parsing uses. Definitions only.

    Text is bytes. It is taken to be UTF-8 without NUL characters and without a byte order mark; bytes from 128 up count as
    letters, which is exact where all other characters are letters or stand in quotes. The scanner runs in the mode set in
    pkg/markers/parse.go:812-819 (Idents, Ints, Floats, Strings, RawStrings; SkipComments has no effect without
    ScanComments), with Ints and Floats switched off for strings ([nums]).

    An error reported to the scanner's handler makes the whole marker fail (parse.go:846-848, 915-917), so the model stops there. *)

From Coq Require Import List String Ascii Bool Arith NArith ZArith.
From Verif Require Import GoLib.
Import ListNotations.
Open Scope string_scope.
Open Scope list_scope.

Definition code (a : ascii) : nat := nat_of_ascii a.
(** No Go counterpart: classes of bytes for text/scanner, used from pkg/markers/parse.go:812-820 *)
Definition between (lo hi : nat) (a : ascii) : bool := Nat.leb lo (code a) && Nat.leb (code a) hi.
(** No Go counterpart: classes of bytes for text/scanner, used from pkg/markers/parse.go:812-820 *)
Definition newline : ascii := ascii_of_nat 10.
(** No Go counterpart: classes of bytes for text/scanner, used from pkg/markers/parse.go:812-820 *)
Definition dquote : ascii := ascii_of_nat 34.
(** No Go counterpart: classes of bytes for text/scanner, used from pkg/markers/parse.go:812-820 *)
Definition backslash : ascii := ascii_of_nat 92.

(** Go: scanner.GoWhitespace. text/scanner, used from pkg/markers/parse.go:812-820. *)
Definition is_blank (a : ascii) : bool := Nat.eqb (code a) 9 || Nat.eqb (code a) 10 || Nat.eqb (code a) 13 || Nat.eqb (code a) 32.
(** Go: isDecimal, isHex, letters of isIdentRune. text/scanner, used from pkg/markers/parse.go:812-820; octal digits
    for escapes. *)
Definition is_digit : ascii -> bool := between 48 57.
(** text/scanner, used from pkg/markers/parse.go:812-820; octal digits for escapes *)
Definition is_hex (a : ascii) : bool := between 48 57 a || between 97 102 a || between 65 70 a.
(** text/scanner, used from pkg/markers/parse.go:812-820; octal digits for escapes *)
Definition is_octal : ascii -> bool := between 48 55.
(** text/scanner, used from pkg/markers/parse.go:812-820; octal digits for escapes *)
Definition is_letter (a : ascii) : bool := between 97 122 a || between 65 90 a || Nat.eqb (code a) 95 || Nat.leb 128 (code a).
(** text/scanner, used from pkg/markers/parse.go:812-820; octal digits for escapes *)
Definition is_ident (a : ascii) : bool := is_letter a || is_digit a.
(** Go: lower. text/scanner, used from pkg/markers/parse.go:812-820. *)
Definition lower (a : ascii) : ascii := if between 65 90 a then ascii_of_nat (code a + 32) else a.
(** Go: digitVal. text/scanner, used from pkg/markers/parse.go:812-820. *)
Definition digit_val (a : ascii) : nat :=
  if is_digit a then code a - 48 else if between 97 102 a then code a - 87 else if between 65 70 a then code a - 55 else 16.

(** The longest prefix of characters satisfying [p]: its length. No Go counterpart: the loops of text/scanner, used
    from pkg/markers/parse.go:812-820. *)
Fixpoint span (p : ascii -> bool) (s : string) : nat :=
  match s with
  | EmptyString => 0
  | String a s' => if p a then S (span p s') else 0
  end.

(** ** text/scanner: numbers *)

(** Go: Scanner.digits: number of characters, any digit, any '_', any digit out of range. text/scanner, used from
    pkg/markers/parse.go:812-820. *)
Fixpoint digits (base : nat) (s : string) : nat * bool * bool * bool :=
  match s with
  | EmptyString => (0, false, false, false)
  | String a s' =>
      let us := Ascii.eqb a "_" in
      if (if Nat.leb base 10 then is_digit a else is_hex a) || us
      then let '(n, d, u, i) := digits base s' in
           (S n, d || negb us, u || us, i || (negb us && Nat.leb base 10 && Nat.leb base (digit_val a)))
      else (0, false, false, false)
  end.

(** Go: invalidSep, from the second character on; [hex]: prefix 0x; [d]: the previous character's class.
    text/scanner, used from pkg/markers/parse.go:812-820. *)
Inductive sepclass := SepUnder | SepDigit | SepOther.
(** text/scanner, used from pkg/markers/parse.go:812-820 *)
Fixpoint invalid_sep (hex : bool) (d : sepclass) (s : string) : bool :=
  match s with
  | EmptyString => match d with SepUnder => true | _ => false end
  | String a s' =>
      if Ascii.eqb a "_" then match d with SepDigit => invalid_sep hex SepUnder s' | _ => true end
      else if is_digit a || (hex && is_hex a) then invalid_sep hex SepDigit s'
      else match d with SepUnder => true | _ => invalid_sep hex SepOther s' end
  end.
(** text/scanner: invalidSep, used from pkg/markers/parse.go:812-820 *)
Definition number_prefix (s : string) : option ascii :=
  match s with
  | String z (String x _) =>
      if Ascii.eqb z "0" then
        let x := lower x in if Ascii.eqb x "x" || Ascii.eqb x "o" || Ascii.eqb x "b" then Some x else Some "0"%char
      else None
  | String z EmptyString => if Ascii.eqb z "0" then Some "0"%char else None
  | EmptyString => None
  end.
(** text/scanner: invalidSep, used from pkg/markers/parse.go:812-820 *)
Definition bad_separators (s : string) : bool :=
  match number_prefix s with
  | Some x => if Ascii.eqb x "0" then invalid_sep false SepOther s else invalid_sep (Ascii.eqb x "x") SepDigit (str_drop 2 s)
  | None => invalid_sep false SepOther s
  end.

(** Go: Scanner.scanNumber, the exponent at the start of [s]: its length, any '_', is there one, an error.
    text/scanner, used from pkg/markers/parse.go:812-820. *)
Definition scan_exponent (prefix : option ascii) (s : string) : nat * bool * bool * bool :=
  match s with
  | String e rest =>
      let e := lower e in
      if Ascii.eqb e "e" || Ascii.eqb e "p" then
        let bad := (Ascii.eqb e "e" && negb (match prefix with None => true | Some x => Ascii.eqb x "0" end)) ||
                   (Ascii.eqb e "p" && negb (match prefix with Some x => Ascii.eqb x "x" | None => false end)) in
        let sign := match rest with String a _ => if Ascii.eqb a "+" || Ascii.eqb a "-" then 1 else 0 | EmptyString => 0 end in
        let '(n, d, u, _) := digits 10 (str_drop sign rest) in
        (1 + sign + n, u, true, bad || negb d)
      else (0, false, false, false)
  | EmptyString => (0, false, false, false)
  end.

(** Go: Scanner.scanNumber at the start of [s] ([dot]: a '.' was read before [s]); is it a float, and its length in [s].
    None: an error was reported. text/scanner, used from pkg/markers/parse.go:812-820. *)
Definition scan_number (dot : bool) (s : string) : option (bool * nat) :=
  let prefix := if dot then None else number_prefix s in
  let base := match prefix with
              | Some x => if Ascii.eqb x "x" then 16 else if Ascii.eqb x "b" then 2 else 8
              | None => 10 end in
  let n0 := match prefix with Some x => if Ascii.eqb x "0" then 1 else 2 | None => 0 end in
  let zero := match prefix with Some x => Ascii.eqb x "0" | None => false end in
  let '(n1, d1, u1, i1) := if dot then (0, false, false, false) else digits base (str_drop n0 s) in
  let after := str_drop (n0 + n1) s in
  let point := negb dot && match after with String a _ => Ascii.eqb a "." | EmptyString => false end in
  let n2 := n0 + n1 + (if point then 1 else 0) in
  let frac := dot || point in
  let '(n3, d3, u3, i3) := if frac then digits base (str_drop n2 s) else (0, false, false, false) in
  let radix_error := frac && match prefix with Some x => Ascii.eqb x "o" || Ascii.eqb x "b" | None => false end in
  let no_digits := negb (zero || d1 || d3) in
  let n4 := n2 + n3 in
  let '(n5, u5, exp, exp_error) := scan_exponent prefix (str_drop n4 s) in
  let hex_error := negb exp && frac && match prefix with Some x => Ascii.eqb x "x" | None => false end in
  let float := frac || exp in
  let n := n4 + n5 in
  let digit_error := negb float && (i1 || i3) in
  let sep_error := (u1 || u3 || u5) && bad_separators ((if dot then "." else "") ++ str_take n s)%string in
  if radix_error || no_digits || exp_error || hex_error || digit_error || sep_error then None else Some (float, n).

(** ** text/scanner: strings *)

(** Go: the escapes of one letter in a double-quoted string. text/scanner, used from pkg/markers/parse.go:812-820. *)
Definition simple_escape (e : ascii) : option ascii :=
  let n := code e in
  if Nat.eqb n 97 then Some (ascii_of_nat 7) else if Nat.eqb n 98 then Some (ascii_of_nat 8) else
  if Nat.eqb n 102 then Some (ascii_of_nat 12) else if Nat.eqb n 110 then Some (ascii_of_nat 10) else
  if Nat.eqb n 114 then Some (ascii_of_nat 13) else if Nat.eqb n 116 then Some (ascii_of_nat 9) else
  if Nat.eqb n 118 then Some (ascii_of_nat 11) else if Nat.eqb n 92 then Some backslash else
  if Nat.eqb n 34 then Some dquote else None.

(** Go: Scanner.scanString after the opening quote: the length including the closing quote. None: an error was
    reported. text/scanner, used from pkg/markers/parse.go:812-820. *)
Fixpoint scan_string (s : string) : option nat :=
  match s with
  | EmptyString => None
  | String c r =>
      if Ascii.eqb c dquote then Some 1
      else if Ascii.eqb c newline then None
      else if Ascii.eqb c backslash then
        match r with
        | EmptyString => None
        | String e r1 =>
            match simple_escape e with
            | Some _ => option_map (plus 2) (scan_string r1)
            | None =>
                if is_octal e then
                  match r1 with
                  | String o2 (String o3 r3) => if is_octal o2 && is_octal o3 then option_map (plus 4) (scan_string r3) else None
                  | _ => None
                  end
                else if Ascii.eqb e "x" then
                  match r1 with
                  | String h1 (String h2 r3) => if is_hex h1 && is_hex h2 then option_map (plus 4) (scan_string r3) else None
                  | _ => None
                  end
                else if Ascii.eqb e "u" then
                  match r1 with
                  | String h1 (String h2 (String h3 (String h4 r5))) =>
                      if is_hex h1 && is_hex h2 && is_hex h3 && is_hex h4 then option_map (plus 6) (scan_string r5) else None
                  | _ => None
                  end
                else if Ascii.eqb e "U" then
                  match r1 with
                  | String h1 (String h2 (String h3 (String h4 (String h5 (String h6 (String h7 (String h8 r9))))))) =>
                      if is_hex h1 && is_hex h2 && is_hex h3 && is_hex h4 && is_hex h5 && is_hex h6 && is_hex h7 && is_hex h8
                      then option_map (plus 10) (scan_string r9) else None
                  | _ => None
                  end
                else None
            end
        end
      else option_map S (scan_string r)
  end.

(** Go: Scanner.scanRawString after the opening quote. text/scanner, used from pkg/markers/parse.go:812-820. *)
Fixpoint scan_raw_string (s : string) : option nat :=
  match s with
  | EmptyString => None
  | String c r => if Ascii.eqb c "`" then Some 1 else option_map S (scan_raw_string r)
  end.

(** ** text/scanner: Scanner *)

(** text/scanner, used from pkg/markers/parse.go:812-820 *)
Inductive token := TEOF | TIdent | TInt | TFloat | TString | TRawString | TChar (c : ascii).

(** [pos]: offset of the next character, which is the first of [rest]; [off]: Position.Offset; [txt]: TokenText.
    text/scanner, used from pkg/markers/parse.go:812-820. *)
Record scanner := mkScanner { nums : bool; pos : nat; rest : string; off : nat; txt : string }.

(** pkg/markers/parse.go:812-820 *)
Definition new_scanner (raw : string) : scanner := mkScanner true 0 raw 0 "".

(** Go: Scanner.Peek; None: EOF. text/scanner, used from pkg/markers/parse.go:812-820. *)
Definition peek (s : scanner) : option ascii := match rest s with EmptyString => None | String a _ => Some a end.

(** Go: Scanner.Next, which also drops the token text. text/scanner, used from pkg/markers/parse.go:812-820. *)
Definition next (s : scanner) : scanner :=
  match rest s with
  | EmptyString => mkScanner (nums s) (pos s) (rest s) (off s) ""
  | String _ r => mkScanner (nums s) (S (pos s)) r (off s) ""
  end.

(** The token at the start of [s] (no white space) and its length. None: an error was reported. text/scanner, used
    from pkg/markers/parse.go:812-820. *)
Definition token_at (numbers : bool) (s : string) : option (token * nat) :=
  match s with
  | EmptyString => Some (TEOF, 0)
  | String c r =>
      if is_letter c then Some (TIdent, S (span is_ident r))
      else if is_digit c then
        if numbers then match scan_number false s with
                        | Some (float, n) => Some (if float then TFloat else TInt, n)
                        | None => None
                        end
        else Some (TChar c, 1)
      else if Ascii.eqb c dquote then match scan_string r with Some n => Some (TString, S n) | None => None end
      else if Ascii.eqb c "`" then match scan_raw_string r with Some n => Some (TRawString, S n) | None => None end
      else if Ascii.eqb c "." && numbers && match r with String d _ => is_digit d | EmptyString => false end then
        match scan_number true r with
        | Some (_, n) => Some (TFloat, S n)
        | None => None
        end
      else Some (TChar c, 1)
  end.

(** Go: Scanner.Scan. text/scanner, used from pkg/markers/parse.go:812-820. *)
Definition scan (s : scanner) : option (token * scanner) :=
  let k := span is_blank (rest s) in
  let r := str_drop k (rest s) in
  match token_at (nums s) r with
  | None => None
  | Some (t, n) => Some (t, mkScanner (nums s) (pos s + k + n) (str_drop n r) (pos s + k) (str_take n r))
  end.

(** pkg/markers/parse.go:43-49 *)
Definition peek_no_space (s : scanner) : option ascii * scanner :=
  let k := span is_blank (rest s) in
  let r := str_drop k (rest s) in
  (match r with EmptyString => None | String a _ => Some a end,
   mkScanner (nums s) (pos s + k) r (off s) (if Nat.eqb k 0 then txt s else "")).

(** ** strconv *)

(** Go: utf8.EncodeRune *)
Definition byte (n : N) : ascii := ascii_of_N n.
(** unicode/utf8, below strconv.Unquote (pkg/markers/parse.go:377-411) *)
Definition utf8 (v : N) : string :=
  (if v <? 128 then String (byte v) ""
   else if v <? 2048 then String (byte (192 + v / 64)) (String (byte (128 + v mod 64)) "")
   else if v <? 65536 then String (byte (224 + v / 4096)) (String (byte (128 + (v / 64) mod 64)) (String (byte (128 + v mod 64)) ""))
   else String (byte (240 + v / 262144)) (String (byte (128 + (v / 4096) mod 64)) (String (byte (128 + (v / 64) mod 64)) (String (byte (128 + v mod 64)) ""))))%N.
(** unicode/utf8, below strconv.Unquote (pkg/markers/parse.go:377-411) *)
Definition valid_rune (v : N) : bool := ((v <? 55296) || ((57343 <? v) && (v <=? 1114111)))%N.
(** strconv, below Unquote and Atoi (pkg/markers/parse.go:377-411 and :497-622) *)
Fixpoint number_of (base : N) (s : list ascii) (acc : N) : N :=
  match s with
  | [] => acc
  | a :: s' => number_of base s' (acc * base + N.of_nat (digit_val a))%N
  end.

(** Go: strconv.Unquote, the characters between double quotes; None: an error *)
Fixpoint unquote_body (s : string) : option string :=
  match s with
  | EmptyString => Some ""
  | String c r =>
      if Ascii.eqb c dquote || Ascii.eqb c newline then None
      else if Ascii.eqb c backslash then
        match r with
        | EmptyString => None
        | String e r1 =>
            match simple_escape e with
            | Some x => option_map (String x) (unquote_body r1)
            | None =>
                if is_octal e then
                  match r1 with
                  | String o2 (String o3 r3) =>
                      let v := number_of 8 [e; o2; o3] 0 in
                      if is_octal o2 && is_octal o3 && (v <=? 255)%N then option_map (String (byte v)) (unquote_body r3) else None
                  | _ => None
                  end
                else if Ascii.eqb e "x" then
                  match r1 with
                  | String h1 (String h2 r3) =>
                      if is_hex h1 && is_hex h2 then option_map (String (byte (number_of 16 [h1; h2] 0))) (unquote_body r3) else None
                  | _ => None
                  end
                else if Ascii.eqb e "u" then
                  match r1 with
                  | String h1 (String h2 (String h3 (String h4 r5))) =>
                      let v := number_of 16 [h1; h2; h3; h4] 0 in
                      if is_hex h1 && is_hex h2 && is_hex h3 && is_hex h4 && valid_rune v
                      then option_map (append (utf8 v)) (unquote_body r5) else None
                  | _ => None
                  end
                else if Ascii.eqb e "U" then
                  match r1 with
                  | String h1 (String h2 (String h3 (String h4 (String h5 (String h6 (String h7 (String h8 r9))))))) =>
                      let v := number_of 16 [h1; h2; h3; h4; h5; h6; h7; h8] 0 in
                      if is_hex h1 && is_hex h2 && is_hex h3 && is_hex h4 && is_hex h5 && is_hex h6 && is_hex h7 && is_hex h8 && valid_rune v
                      then option_map (append (utf8 v)) (unquote_body r9) else None
                  | _ => None
                  end
                else None
            end
        end
      else option_map (String c) (unquote_body r)
  end.

(** strconv.Unquote drops carriage returns of raw strings (pkg/markers/parse.go:377-411) *)
Fixpoint filter_str (p : ascii -> bool) (s : string) : string :=
  match s with EmptyString => "" | String a s' => if p a then String a (filter_str p s') else filter_str p s' end.

(** Go: strconv.Unquote on the text of a String or RawString token *)
Definition unquote (t : string) : option string :=
  match t with
  | EmptyString => None
  | String q r =>
      let body := str_take (String.length r - 1) r in
      if Ascii.eqb q "`" then Some (filter_str (fun a => negb (Nat.eqb (code a) 13)) body)
      else unquote_body body
  end.

(** Go: strconv.Atoi on 64-bit platforms *)
Fixpoint all_digits (s : string) : bool := match s with EmptyString => true | String a s' => is_digit a && all_digits s' end.
(** strconv.Atoi, called in pkg/markers/parse.go:497-622 *)
Definition atoi_abs (s : string) : option Z :=
  match s with
  | EmptyString => None
  | _ => if all_digits s then Some (Z.of_N (number_of 10 (list_ascii_of_string s) 0)) else None
  end.
(** strconv.Atoi, called in pkg/markers/parse.go:497-622 *)
Definition int64 (z : Z) : option Z := if ((- 2 ^ 63 <=? z) && (z <? 2 ^ 63))%Z then Some z else None.
(** strconv.Atoi, called in pkg/markers/parse.go:497-622 *)
Definition atoi (s : string) : option Z :=
  match s with
  | EmptyString => None
  | String c r =>
      if Ascii.eqb c "-" then match atoi_abs r with Some z => int64 (- z) | None => None end
      else if Ascii.eqb c "+" then match atoi_abs r with Some z => int64 z | None => None end
      else match atoi_abs s with Some z => int64 z | None => None end
  end.
