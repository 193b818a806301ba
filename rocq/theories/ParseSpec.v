(** * What marker arguments mean: a grammar of texts and their values. *)
From Coq Require Import List String Ascii Bool Arith NArith ZArith.
From Verif Require Import GoLib ParseModel.
Import ListNotations.
Open Scope string_scope.
Open Scope list_scope.

(** ** Characters *)
Definition all_chars (p : ascii -> Prop) (s : string) : Prop := forall x a y, s = (x ++ String a y)%string -> p a.
Definition codes (l : list nat) (a : ascii) : Prop := In (nat_of_ascii a) l.
(** tab, newline, carriage return, space *)
Definition space_char : ascii -> Prop := codes [9; 10; 13; 32].
Definition spaces : string -> Prop := all_chars space_char.
Definition digit_char (a : ascii) : Prop := 48 <= nat_of_ascii a <= 57.
Definition letter_char (a : ascii) : Prop := let n := nat_of_ascii a in 97 <= n <= 122 \/ 65 <= n <= 90 \/ n = 95 \/ 128 <= n.
Definition word_char (a : ascii) : Prop := letter_char a \/ digit_char a.

Definition ends (s : string) : Prop := s = "".
Definition begins (p : ascii -> Prop) (s : string) : Prop := exists a y, s = String a y /\ p a.

(** ** Numbers *)
(** The number a row of digits stands for *)
Inductive digits_are : string -> Z -> Prop :=
| digits_none : digits_are "" 0
| digits_more ds z a : digits_are ds z -> digit_char a -> digits_are (ds ++ String a "") (10 * z + (Z.of_nat (nat_of_ascii a) - 48)).
(** No leading zeros *)
Definition natural (s : string) (z : Z) : Prop := digits_are s z /\ (s = "0" \/ begins (fun a => digit_char a /\ nat_of_ascii a <> 48) s).
Definition integer (s : string) (z : Z) : Prop := natural s z \/ exists t y, s = ("-" ++ t)%string /\ natural t y /\ z = (- y)%Z.
Definition in_int64 (z : Z) : Prop := (- 2 ^ 63 <= z < 2 ^ 63)%Z.
(** The representative of z among the 32-bit numbers *)
Definition as_int (is32 : bool) (z v : Z) : Prop := if is32 then (- 2 ^ 31 <= v < 2 ^ 31)%Z /\ exists k, v = (z + k * 2 ^ 32)%Z else v = z.
Definition decimal (s : string) : Prop := (exists z, integer s z) \/ exists t u z, s = (t ++ "." ++ u)%string /\ integer t z /\ all_chars digit_char u /\ u <> "".

(** ** Strings *)
Definition hex_value (a : ascii) (n : nat) : Prop :=
  let c := nat_of_ascii a in (48 <= c <= 57 /\ c = 48 + n) \/ (97 <= c <= 102 /\ c = 87 + n) \/ (65 <= c <= 70 /\ c = 55 + n).
Definition quote_char : ascii := ascii_of_nat 34.
Definition backslash_char : ascii := ascii_of_nat 92.
(** What stands between double quotes *)
Inductive quoted : string -> string -> Prop :=
| quoted_end : quoted "" ""
| quoted_char a s v : ~ codes [10; 34; 92] a -> quoted s v -> quoted (String a s) (String a v)
| quoted_escape e x s v : In (nat_of_ascii e, nat_of_ascii x) [(97, 7); (98, 8); (102, 12); (110, 10); (114, 13); (116, 9); (118, 11); (92, 92); (34, 34)] ->
    quoted s v -> quoted (String backslash_char (String e s)) (String x v)
| quoted_hex h l m n x s v : hex_value h m -> hex_value l n -> nat_of_ascii x = 16 * m + n -> quoted s v ->
    quoted (String backslash_char (String "x" (String h (String l s)))) (String x v).
(** Strings without quotes. Inner spaces are kept. *)
Definition bare (s : string) : Prop :=
  s <> "" /\ all_chars (fun a => ~ In a [","; ";"; ":"; "}"; "`"]%char /\ a <> quote_char) s /\
  ~ begins (fun a => space_char a \/ a = "{"%char) s /\ (forall x a, s = (x ++ String a "")%string -> ~ space_char a).
(** String texts and their values; true: a bare one *)
Inductive text : string -> string -> bool -> Prop :=
| text_quoted s v : quoted s v -> text (String quote_char s ++ String quote_char "") v false
| text_raw s : all_chars (fun a => a <> "`"%char /\ nat_of_ascii a <> 13) s -> text ("`" ++ s ++ "`") s false
| text_bare s : bare s -> text s s true.

(** ** Guessing
    [guessed s a]: a text for an argument of any type that is read as one for [a]. *)
Definition scalar (a : arg) : Prop := a = AStr \/ a = ABool \/ a = ANum \/ exists b, a = AInt b.
(** Only spaces and '}' before a ',' or the end *)
Definition calm (s : string) : Prop := exists x y, s = (x ++ y)%string /\ all_chars (fun a => space_char a \/ a = "}"%char) x /\ (y = "" \/ begins (fun a => a = ","%char) y).
(** Bare strings made of words: no number starts in them *)
Definition wordy (s : string) : Prop :=
  bare s /\ (forall x a y, s = (x ++ String a y)%string -> digit_char a -> exists x' b, x = (x' ++ String b "")%string /\ word_char b) /\
  forall w t, s = (w ++ t)%string -> (w = "true" \/ w = "false") -> begins word_char t.
Inductive guessed : string -> arg -> Prop :=
| guessed_int s z : integer s z -> guessed s (AInt false)
| guessed_num s t u z : s = (t ++ "." ++ u)%string -> integer t z -> all_chars digit_char u -> u <> "" -> guessed s ANum
| guessed_bool s : s = "true" \/ s = "false" -> guessed s ABool
| guessed_str s v b : text s v b -> (b = true -> wordy s) -> guessed s AStr
| guessed_empty w : spaces w -> guessed ("{" ++ w ++ "}") (AMap AAny)
| guessed_map w k kv kb w1 w2 s a r : spaces w -> text k kv kb -> (kb = true -> wordy k /\ w1 = "") -> spaces w1 -> spaces w2 -> guessed s a -> calm r ->
    guessed ("{" ++ w ++ k ++ w1 ++ ":" ++ w2 ++ s ++ r) (AMap AAny)
| guessed_slice w s a r : spaces w -> guessed s a -> calm r -> guessed ("{" ++ w ++ s ++ r) (ASlice a).

(** ** Values *)
(** White space after a text; none after a bare string *)
Definition after (b : bool) (w : string) : Prop := spaces w /\ (b = true -> w = "").
(** White space before a value that stands after ':' or '='; none before a minus sign *)
Definition before (w s : string) : Prop := spaces w /\ (begins (fun a => a = "-"%char) s -> w = "").

Section Values.
  Variable float_ok : string -> bool.
  Inductive denotes : arg -> string -> value -> bool -> Prop :=
  | denotes_int is32 s z v : integer s z -> in_int64 z -> as_int is32 z v -> denotes (AInt is32) s (VInt v) false
  | denotes_num s : decimal s -> float_ok s = true -> denotes ANum s (VNum s) false
  | denotes_true : denotes ABool "true" (VBool true) false
  | denotes_false : denotes ABool "false" (VBool false) false
  | denotes_str s v b : text s v b -> denotes AStr s (VStr v) b
  | denotes_ptr a s v b : a <> AAny -> denotes a s v b -> denotes (APtr a) s (VPtr v) b
  | denotes_list a w s vs : spaces w -> items a s vs -> denotes (ASlice a) ("{" ++ w ++ s ++ "}") (VList vs) false
  | denotes_legacy a s vs b : legacy a s vs b -> denotes (ASlice a) s (VList vs) b
  | denotes_map a w s m : spaces w -> pairs a s [] m -> denotes (AMap a) ("{" ++ w ++ s ++ "}") (VMap m) false
  | denotes_any s a v b : guessed s a -> denotes a s v b -> denotes AAny s v b
  | denotes_any_legacy s1 a w r vs b : scalar a -> guessed s1 a -> spaces w -> legacy a (s1 ++ w ++ ";" ++ r) vs b -> denotes AAny (s1 ++ w ++ ";" ++ r) (VList vs) b
  (** a value in a slice: if its type is to be guessed, it is no val;val *)
  with item : arg -> string -> value -> bool -> Prop :=
  | item_typed a s v b : a <> AAny -> denotes a s v b -> item a s v b
  | item_any s a v b : guessed s a -> denotes a s v b -> item AAny s v b
  (** val, val, val with an optional comma at the end *)
  with items : arg -> string -> list value -> Prop :=
  | items_none a : items a "" []
  | items_last a s v b w : item a s v b -> after b w -> items a (s ++ w) [v]
  | items_more a s v b w w' rest vs : item a s v b -> after b w -> spaces w' -> items a rest vs -> items a (s ++ w ++ "," ++ w' ++ rest) (v :: vs)
  (** val;val;val, no slices or maps *)
  with flat : arg -> string -> value -> bool -> Prop :=
  | flat_typed a s v b : scalar a -> denotes a s v b -> flat a s v b
  | flat_any a s v b : scalar a -> guessed s a -> denotes a s v b -> flat AAny s v b
  with legacy : arg -> string -> list value -> bool -> Prop :=
  | legacy_last a s v b : flat a s v b -> legacy a s [v] b
  | legacy_more a s v b w w' rest vs b' : flat a s v b -> after b w -> spaces w' -> legacy a rest vs b' -> legacy a (s ++ w ++ ";" ++ w' ++ rest) (v :: vs) b'
  (** key: val, key: val; a key given twice has its last value *)
  with pairs : arg -> string -> list (string * value) -> list (string * value) -> Prop :=
  | pairs_none a m : pairs a "" m m
  | pairs_last a k kv kb w1 w2 s v b w m : text k kv kb -> after kb w1 -> before w2 s -> denotes a s v b -> after b w ->
      pairs a (k ++ w1 ++ ":" ++ w2 ++ s ++ w) m (mset String.eqb m kv v)
  | pairs_more a k kv kb w1 w2 s v b w w' rest m m' : text k kv kb -> after kb w1 -> before w2 s -> denotes a s v b -> after b w -> spaces w' ->
      pairs a rest (mset String.eqb m kv v) m' -> pairs a (k ++ w1 ++ ":" ++ w2 ++ s ++ w ++ "," ++ w' ++ rest) m m'.
End Values.

(** ** Named arguments *)
(** name=val,name=val: names, texts and values *)
Definition name_text (s : string) : Prop := begins letter_char s /\ all_chars word_char s.

Section Arguments.
  Variable float_ok : string -> bool.
  (** What the definition of a marker says of an argument *)
  Definition declared (d : definition) (name : string) (f : field) : Prop := exists x y, d_fields d = x ++ (name, f) :: y /\ ~ In name (map fst x).
  (** name=val, name=val with the values in the order given *)
  Inductive arguments (d : definition) : string -> list (string * field * value) -> Prop :=
  | arguments_last w name w1 w2 s f v b : spaces w -> name_text name -> spaces w1 -> declared d name f -> before w2 s -> denotes float_ok (f_arg f) s v b ->
      arguments d (w ++ name ++ w1 ++ "=" ++ w2 ++ s) [(name, f, v)]
  | arguments_more w name w1 w2 s w3 f v b rest l : spaces w -> name_text name -> spaces w1 -> declared d name f -> before w2 s -> denotes float_ok (f_arg f) s v b -> after b w3 ->
      arguments d rest l -> arguments d (w ++ name ++ w1 ++ "=" ++ w2 ++ s ++ w3 ++ "," ++ rest) ((name, f, v) :: l).
  (** Good arguments up to one that is not declared *)
  Inductive unknown_argument (d : definition) : string -> Prop :=
  | unknown_here w name w1 rest : spaces w -> name_text name -> spaces w1 -> (forall f, ~ declared d name f) -> unknown_argument d (w ++ name ++ w1 ++ "=" ++ rest)
  | unknown_later w name w1 w2 s w3 f v b rest : spaces w -> name_text name -> spaces w1 -> declared d name f -> before w2 s -> denotes float_ok (f_arg f) s v b -> after b w3 ->
      unknown_argument d rest -> unknown_argument d (w ++ name ++ w1 ++ "=" ++ w2 ++ s ++ w3 ++ "," ++ rest).
  (** The last value given for a field *)
  Definition last_value {A} (l : list (string * A)) (k : string) (v : A) : Prop := exists x y, l = x ++ (k, v) :: y /\ ~ In k (map fst y).

  (** ** Types *)
  Inductive typed : arg -> value -> Prop :=
  | typed_int z : in_int64 z -> typed (AInt false) (VInt z)
  | typed_int32 z : (- 2 ^ 31 <= z < 2 ^ 31)%Z -> typed (AInt true) (VInt z)
  | typed_num s : float_ok s = true -> typed ANum (VNum s)
  | typed_str s : typed AStr (VStr s)
  | typed_bool b : typed ABool (VBool b)
  | typed_list a l : Forall (typed a) l -> typed (ASlice a) (VList l)
  | typed_map a m : NoDup (map fst m) -> Forall (fun kv => typed a (snd kv)) m -> typed (AMap a) (VMap m)
  | typed_raw s : typed ARaw (VRaw s)
  | typed_ptr a v : typed a v -> typed (APtr a) (VPtr v)
  | typed_any a v : a <> AAny -> typed a v -> typed AAny v.
  (** Values that can be written: numbers as decimals; for an argument of any type no empty slices, and slices of one type *)
  Inductive written : arg -> value -> Prop :=
  | written_int z : in_int64 z -> written (AInt false) (VInt z)
  | written_int32 z : (- 2 ^ 31 <= z < 2 ^ 31)%Z -> written (AInt true) (VInt z)
  | written_num s : decimal s -> float_ok s = true -> written ANum (VNum s)
  | written_str s : written AStr (VStr s)
  | written_bool b : written ABool (VBool b)
  | written_list a l : Forall (written a) l -> written (ASlice a) (VList l)
  | written_map a m : NoDup (map fst m) -> Forall (fun kv => written a (snd kv)) m -> written (AMap a) (VMap m)
  | written_ptr a v : a <> AAny -> written a v -> written (APtr a) (VPtr v)
  | written_any a v : free a v -> written a v -> written AAny v
  (** [free a v]: the type found for v, if its type is not known *)
  with free : arg -> value -> Prop :=
  | free_int z : free (AInt false) (VInt z)
  | free_str s : free AStr (VStr s)
  | free_bool b : free ABool (VBool b)
  | free_list a v l : free a v -> written a v -> free (ASlice a) (VList (v :: l))
  | free_map m : free (AMap AAny) (VMap m).
End Arguments.

(** The kind of value a Go type takes: pointers only to types that are neither raw, any nor pointers *)
Inductive takes : gotype -> arg -> Prop :=
| takes_raw : takes GRaw ARaw
| takes_any : takes GAny AAny
| takes_string : takes GString AStr
| takes_int : takes GInt (AInt false)
| takes_int32 : takes GInt32 (AInt true)
| takes_float : takes GFloat64 ANum
| takes_bool : takes GBool ABool
| takes_slice t a : takes t a -> takes (GSlice t) (ASlice a)
| takes_map t a : takes t a -> takes (GMap GString t) (AMap a)
| takes_ptr t a : takes t a -> match t with GRaw | GAny | GPtr _ => False | _ => True end -> takes (GPtr t) (APtr a).
