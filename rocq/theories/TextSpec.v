(** * Reading Go (C67)

    The part of Go's syntax that matters here, after the Go Programming Language Specification: tokens, with the semicolons that are inserted at the
    ends of lines; expressions, with the precedence of operators over selectors; statements; methods; a file. A text that uses more of the language
    is not read. What is read is a tree; and what tree the statements of DeepModel are.
    Bytes over 127 are taken for letters; of string literals only those without escapes are read. *)
From Coq Require Import List String Ascii Bool Arith.
From Verif Require Import DeepModel.
From Verif Require ImportModel ObjectModel.
Import ListNotations.
Open Scope string_scope.
Open Scope nat_scope.
Open Scope list_scope.

(** ** Tokens *)
Inductive tok := TId (s : string) | TStr (s : string) | TOp (s : string) | TSemi.
Definition keywords : list string :=
  ["break"; "case"; "chan"; "const"; "continue"; "default"; "defer"; "else"; "fallthrough"; "for"; "func"; "go"; "goto"; "if"; "import"; "interface";
   "map"; "package"; "range"; "return"; "select"; "struct"; "switch"; "type"; "var"].
Definition is_keyword (s : string) : bool := existsb (String.eqb s) keywords.

Definition is_digit (c : ascii) : bool := (48 <=? nat_of_ascii c) && (nat_of_ascii c <=? 57).
Definition is_letter (c : ascii) : bool :=
  let n := nat_of_ascii c in ((65 <=? n) && (n <=? 90)) || ((97 <=? n) && (n <=? 122)) || (n =? 95) || (128 <=? n).
Definition word_char (c : ascii) : bool := is_letter c || is_digit c.
Fixpoint all_chars (p : ascii -> bool) (s : string) : bool := match s with "" => true | String c s' => p c && all_chars p s' end.
(** An identifier *)
Definition identifier (s : string) : bool :=
  match s with "" => false | String c s' => is_letter c && all_chars word_char s' && negb (is_keyword s) end.

Definition nl : ascii := "010"%char.
Definition quote : ascii := """"%char.
Definition one (c : ascii) : string := String c "".
(** Does a line that ends with the token end a statement? *)
Definition ends_line (t : tok) : bool :=
  match t with
  | TId s => negb (is_keyword s) || existsb (String.eqb s) ["break"; "continue"; "fallthrough"; "return"]
  | TStr _ => true
  | TOp s => existsb (String.eqb s) [")"; "]"; "}"]
  | TSemi => false
  end.

(** The lexer, one character at a time: where it is (between tokens, in a word, after a character that may begin a longer token, in comments, in a
    string), whether the last token ends a line, and the tokens, last first *)
Inductive mode := Idle | InWord (s : string) | After (c : ascii) | LineComment | Comment (star : bool) | InString (s : string) | Wrong.
Record lexer := mkL { l_mode : mode; l_ends : bool; l_toks : list tok }.
Definition emit (t : tok) (x : lexer) : lexer := mkL Idle (ends_line t) (t :: l_toks x).
Definition line_end (x : lexer) : lexer := if l_ends x then mkL Idle false (TSemi :: l_toks x) else mkL Idle false (l_toks x).
Definition fresh (c : ascii) (x : lexer) : lexer :=
  if Ascii.eqb c nl then line_end x
  else if existsb (Ascii.eqb c) [" "; "009"; "013"]%char then mkL Idle (l_ends x) (l_toks x)
  else if is_letter c then mkL (InWord (one c)) (l_ends x) (l_toks x)
  else if Ascii.eqb c quote then mkL (InString "") (l_ends x) (l_toks x)
  else if existsb (Ascii.eqb c) [":"; "="; "!"; "/"; "*"; "&"]%char then mkL (After c) (l_ends x) (l_toks x)
  else if Ascii.eqb c ";"%char then emit TSemi x
  else if existsb (Ascii.eqb c) ["("; ")"; "["; "]"; "{"; "}"; ","; "."]%char then emit (TOp (one c)) x
  else mkL Wrong false (l_toks x).
Definition step (x : lexer) (c : ascii) : lexer :=
  match l_mode x with
  | Wrong => x
  | Idle => fresh c x
  | LineComment => if Ascii.eqb c nl then line_end x else x
  | Comment star =>
      if star && Ascii.eqb c "/"%char then mkL Idle (l_ends x) (l_toks x)
      else if Ascii.eqb c nl && l_ends x then mkL (Comment false) false (TSemi :: l_toks x)
      else mkL (Comment (Ascii.eqb c "*"%char)) (l_ends x) (l_toks x)
  | InString s =>
      if Ascii.eqb c quote then emit (TStr s) x
      else if Ascii.eqb c nl || Ascii.eqb c "\"%char then mkL Wrong false (l_toks x)
      else mkL (InString (s ++ one c)) (l_ends x) (l_toks x)
  | InWord s => if word_char c then mkL (InWord (s ++ one c)) (l_ends x) (l_toks x) else fresh c (emit (TId s) x)
  | After p =>
      let two := (one p ++ one c)%string in
      if existsb (String.eqb two) [":="; "=="; "!="; "*="; "&="; "&&"; "&^"; "/="] then emit (TOp two) x
      else if String.eqb two "//" then mkL LineComment (l_ends x) (l_toks x)
      else if String.eqb two "/*" then mkL (Comment false) (l_ends x) (l_toks x)
      else fresh c (emit (TOp (one p)) x)
  end.
Fixpoint scan (s : string) (x : lexer) : lexer := match s with "" => x | String c s' => scan s' (step x c) end.
(** The tokens of a text *)
Definition tokens (s : string) : option (list tok) :=
  let x := line_end (step (scan s (mkL Idle false [])) nl) in
  match l_mode x with Idle => match l_mode (step (scan s (mkL Idle false [])) nl) with Idle => Some (rev (l_toks x)) | _ => None end | _ => None end.

(** ** Trees *)
Inductive gexpr :=
| XId (x : string) | XStar (e : gexpr) | XAddr (e : gexpr) | XSel (e : gexpr) (f : string) | XIdx (e i : gexpr) | XCall (f : gexpr) (args : list gexpr)
| XSlice (e : gexpr) | XMap (k e : gexpr) | XEq (same : bool) (a b : gexpr).
Inductive gstmt :=
| GExpr (e : gexpr)
| GSet (new : bool) (l r : list gexpr)          (* l = r, l := r *)
| GVar (x : string) (t : gexpr)                 (* var x t *)
| GIf (first : option gstmt) (c : gexpr) (b : list gstmt) (other : option (list gstmt))
| GRange (x : string) (y : option string) (e : gexpr) (b : list gstmt)   (* for x, y := range e { b } *)
| GBlock (b : list gstmt)
| GReturn (e : gexpr).
Record gfunc := mkFunc { g_recv : string * gexpr; g_name : string; g_params : list (string * gexpr); g_result : option gexpr; g_body : list gstmt }.
Record gfile := mkGFile { g_package : string; g_imports : list (option string * string); g_funcs : list gfunc }.

(** ** Parsing *)
Definition name_tok (s : string) : option string := if is_keyword s then None else Some s.
Definition expect {A} (op : string) (a : A) (ts : list tok) : option (A * list tok) :=
  match ts with TOp o :: r => if String.eqb o op then Some (a, r) else None | _ => None end.
Definition andthen {A B} (r : option (A * list tok)) (f : A -> list tok -> option (B * list tok)) : option (B * list tok) :=
  match r with Some (a, ts) => f a ts | None => None end.
(** Types *)
Fixpoint p_type (n : nat) (ts : list tok) : option (gexpr * list tok) :=
  match n with
  | 0 => None
  | S n =>
      match ts with
      | TOp o :: ts =>
          if String.eqb o "*" then andthen (p_type n ts) (fun e ts => Some (XStar e, ts))
          else if String.eqb o "[" then andthen (expect "]" tt ts) (fun _ ts => andthen (p_type n ts) (fun e ts => Some (XSlice e, ts)))
          else None
      | TId x :: ts =>
          if String.eqb x "map" then
            andthen (expect "[" tt ts) (fun _ ts => andthen (p_type n ts) (fun k ts => andthen (expect "]" tt ts) (fun _ ts => andthen (p_type n ts) (fun e ts => Some (XMap k e, ts)))))
          else if is_keyword x then None
          else match ts with
               | TOp o :: TId y :: ts' => if String.eqb o "." then (if is_keyword y then None else Some (XSel (XId x) y, ts')) else Some (XId x, ts)
               | _ => Some (XId x, ts)
               end
      | _ => None
      end
  end.
(** Expressions: unary operators bind less than selectors, indices and calls. *)
Fixpoint p_unary (n : nat) (ts : list tok) : option (gexpr * list tok) :=
  match n with
  | 0 => None
  | S n =>
      match ts with
      | TOp o :: ts' =>
          if String.eqb o "*" then andthen (p_unary n ts') (fun e ts => Some (XStar e, ts))
          else if String.eqb o "&" then andthen (p_unary n ts') (fun e ts => Some (XAddr e, ts))
          else if String.eqb o "(" then andthen (p_unary n ts') (fun e ts => andthen (expect ")" e ts) (p_more n))
          else if String.eqb o "[" then andthen (p_type n ts) (p_more n)
          else None
      | TId x :: ts' =>
          if String.eqb x "map" then andthen (p_type n ts) (p_more n)
          else if is_keyword x then None else p_more n (XId x) ts'
      | _ => None
      end
  end
with p_more (n : nat) (e : gexpr) (ts : list tok) : option (gexpr * list tok) :=
  match n with
  | 0 => None
  | S n =>
      match ts with
      | TOp o :: ts' =>
          if String.eqb o "." then match ts' with TId f :: ts => if is_keyword f then None else p_more n (XSel e f) ts | _ => None end
          else if String.eqb o "[" then andthen (p_unary n ts') (fun i ts => andthen (expect "]" (XIdx e i) ts) (p_more n))
          else if String.eqb o "(" then andthen (p_args n ts') (fun l ts => p_more n (XCall e l) ts)
          else Some (e, ts)
      | _ => Some (e, ts)
      end
  end
with p_args (n : nat) (ts : list tok) : option (list gexpr * list tok) :=
  match n with
  | 0 => None
  | S n =>
      match expect ")" [] ts with
      | Some r => Some r
      | None => andthen (p_unary n ts) (fun e ts => match expect "," tt ts with
                                                    | Some (_, ts) => andthen (p_args n ts) (fun l ts => Some (e :: l, ts))
                                                    | None => expect ")" [e] ts
                                                    end)
      end
  end.
Definition p_expr (n : nat) (ts : list tok) : option (gexpr * list tok) :=
  andthen (p_unary n ts) (fun a ts =>
  match expect "==" tt ts with
  | Some (_, ts) => andthen (p_unary n ts) (fun b ts => Some (XEq true a b, ts))
  | None => match expect "!=" tt ts with
            | Some (_, ts) => andthen (p_unary n ts) (fun b ts => Some (XEq false a b, ts))
            | None => Some (a, ts)
            end
  end).
Fixpoint p_list (n : nat) (ts : list tok) : option (list gexpr * list tok) :=
  match n with
  | 0 => None
  | S n => andthen (p_expr n ts) (fun e ts => match expect "," tt ts with
                                              | Some (_, ts) => andthen (p_list n ts) (fun l ts => Some (e :: l, ts))
                                              | None => Some ([e], ts)
                                              end)
  end.
(** Simple statements *)
Definition p_simple (n : nat) (ts : list tok) : option (gstmt * list tok) :=
  andthen (p_list n ts) (fun l ts =>
  match expect "=" tt ts with
  | Some (_, ts) => andthen (p_list n ts) (fun r ts => Some (GSet false l r, ts))
  | None => match expect ":=" tt ts with
            | Some (_, ts) => andthen (p_list n ts) (fun r ts => Some (GSet true l r, ts))
            | None => match l with [e] => Some (GExpr e, ts) | _ => None end
            end
  end).
Definition p_range (n : nat) (ts : list tok) : option ((string * option string * gexpr) * list tok) :=
  let rest x y ts := andthen (expect ":=" tt ts) (fun _ ts => match ts with TId k :: ts => if String.eqb k "range" then andthen (p_expr n ts) (fun e ts => Some ((x, y, e), ts)) else None | _ => None end) in
  match ts with
  | TId x :: ts =>
      if is_keyword x then None
      else match expect "," tt ts with
           | Some (_, TId y :: ts) => if is_keyword y then None else rest x (Some y) ts
           | Some _ => None
           | None => rest x None ts
           end
  | _ => None
  end.
Fixpoint p_stmt (n : nat) (ts : list tok) : option (gstmt * list tok) :=
  match n with
  | 0 => None
  | S n =>
      let block ts := andthen (expect "{" tt ts) (fun _ ts => p_block n ts) in
      match ts with
      | TOp o :: ts' => if String.eqb o "{" then andthen (p_block n ts') (fun b ts => Some (GBlock b, ts)) else p_simple n ts
      | TId k :: ts' =>
          if String.eqb k "if" then
            andthen (p_simple n ts') (fun s ts =>
            match ts, s with
            | TSemi :: ts, _ => andthen (p_expr n ts) (fun c ts => andthen (block ts) (fun b ts => Some (GIf (Some s) c b None, ts)))
            | _, GExpr c =>
                andthen (block ts) (fun b ts =>
                match ts with
                | TId e :: ts' => if String.eqb e "else" then andthen (block ts') (fun b' ts => Some (GIf None c b (Some b'), ts)) else Some (GIf None c b None, ts)
                | _ => Some (GIf None c b None, ts)
                end)
            | _, _ => None
            end)
          else if String.eqb k "for" then andthen (p_range n ts') (fun r ts => let '(x, y, e) := r in andthen (block ts) (fun b ts => Some (GRange x y e b, ts)))
          else if String.eqb k "var" then match ts' with TId x :: ts => if is_keyword x then None else andthen (p_type n ts) (fun t ts => Some (GVar x t, ts)) | _ => None end
          else if String.eqb k "return" then andthen (p_expr n ts') (fun e ts => Some (GReturn e, ts))
          else p_simple n ts
      | _ => p_simple n ts
      end
  end
with p_block (n : nat) (ts : list tok) : option (list gstmt * list tok) :=
  match n with
  | 0 => None
  | S n =>
      match expect "}" [] ts with
      | Some r => Some r
      | None =>
          andthen (p_stmt n ts) (fun s ts =>
          match ts with
          | TSemi :: ts => andthen (p_block n ts) (fun b ts => Some (s :: b, ts))
          | _ => expect "}" [s] ts
          end)
      end
  end.
Definition p_params (n : nat) (ts : list tok) : option (list (string * gexpr) * list tok) :=
  match expect ")" [] ts with
  | Some r => Some r
  | None => match ts with
            | TId x :: ts => if is_keyword x then None else andthen (p_type n ts) (fun t ts => expect ")" [(x, t)] ts)
            | _ => None
            end
  end.
(** A method, after func *)
Definition p_func (n : nat) (ts : list tok) : option (gfunc * list tok) :=
  andthen (expect "(" tt ts) (fun _ ts => andthen (p_params n ts) (fun rs ts =>
  match rs, ts with
  | [r], TId f :: ts =>
      if is_keyword f then None
      else andthen (expect "(" tt ts) (fun _ ts => andthen (p_params n ts) (fun ps ts =>
           match expect "{" tt ts with
           | Some (_, ts) => andthen (p_block n ts) (fun b ts => Some (mkFunc r f ps None b, ts))
           | None => andthen (p_type n ts) (fun t ts => andthen (expect "{" tt ts) (fun _ ts => andthen (p_block n ts) (fun b ts => Some (mkFunc r f ps (Some t) b, ts))))
           end))
  | _, _ => None
  end)).
Fixpoint p_funcs (n : nat) (ts : list tok) : option (list gfunc) :=
  match n with
  | 0 => None
  | S n =>
      match ts with
      | [] => Some []
      | TId k :: ts =>
          if String.eqb k "func" then
            match p_func n ts with
            | Some (f, TSemi :: ts) => match p_funcs n ts with Some l => Some (f :: l) | None => None end
            | _ => None
            end
          else None
      | _ => None
      end
  end.
Fixpoint p_imports (ts : list tok) : option (list (option string * string) * list tok) :=
  match ts with
  | TOp o :: ts => if String.eqb o ")" then Some ([], ts) else None
  | TStr p :: TSemi :: ts => match p_imports ts with Some (l, ts) => Some ((None, p) :: l, ts) | None => None end
  | TId a :: TStr p :: TSemi :: ts => if is_keyword a then None else match p_imports ts with Some (l, ts) => Some ((Some a, p) :: l, ts) | None => None end
  | _ => None
  end.
Definition p_file (n : nat) (ts : list tok) : option gfile :=
  match ts with
  | TId k :: TId p :: TSemi :: TId i :: TOp o :: ts =>
      if String.eqb k "package" && negb (is_keyword p) && String.eqb i "import" && String.eqb o "(" then
        match p_imports ts with
        | Some (l, TSemi :: ts) => match p_funcs n ts with Some fs => Some (mkGFile p l fs) | None => None end
        | _ => None
        end
      else None
  | _ => None
  end.
(** The text is that of the file: the parser reads it, with any number of steps that is large enough. *)
Definition reads (text : string) (f : gfile) : Prop := exists ts, tokens text = Some ts /\ exists k, forall n, k <= n -> p_file n ts = Some f.

(** ** The statements of DeepModel as trees *)
Section Trees.
  (** The names of types: the package if it is another one, and the name; those of the fields *)
  Variable qualifier : string -> option string.
  Variable bare : string -> string.
  Variable field_name : nat -> string.
  Fixpoint ty_tree (t : ty) : gexpr :=
    match t with
    | TBasic _ s => if String.eqb s "unsafe.Pointer" then XSel (XId "unsafe") "Pointer" else XId s
    | TNamed n => match qualifier n with Some a => XSel (XId a) (bare n) | None => XId (bare n) end
    | TPtr e => XStar (ty_tree e)
    | TSlice e => XSlice (ty_tree e)
    | TMap k e => XMap (ty_tree k) (ty_tree e)
    | TStruct _ | TOther _ => XId ""
    end.
  Fixpoint lval_tree (l : lval) : gexpr :=
    match l with
    | LVar x => XId x
    | LStar x => XStar (XId x)
    | LStar2 l => XStar (lval_tree l)
    | LField (LStar x) i => XSel (XId x) (field_name i)
    | LField l i => XSel (lval_tree l) (field_name i)
    | LIndex l x => XIdx (lval_tree l) (XId x)
    end.
  Definition call (e : gexpr) (f : string) (args : list gexpr) : gexpr := XCall (XSel e f) args.
  Definition expr_tree (e : expr) : gexpr :=
    match e with
    | ERead l => lval_tree l
    | EAddr l => XAddr (lval_tree l)
    | ENil => XId "nil"
    | ENew t => XCall (XId "new") [ty_tree t]
    | EMake t l => XCall (XId "make") [ty_tree t; XCall (XId "len") [lval_tree l]]
    | ECopy l => call (lval_tree l) "DeepCopy" []
    | ECopyVar x => call (XId x) "DeepCopy" []
    | EStarCopy l => XStar (call (lval_tree l) "DeepCopy" [])
    | EMapAt l x => XIdx (lval_tree l) (XId x)
    end.
  Fixpoint stmt_tree (s : stmt) : gstmt :=
    match s with
    | SSet l e => GSet false [lval_tree l] [expr_tree e]
    | SSetMap l x e => GSet false [XIdx (lval_tree l) (XId x)] [expr_tree e]
    | SVar x t => GVar x (ty_tree t)
    | SLet x e => GSet true [XId x] [expr_tree e]
    | SInOut e1 e2 => GSet true [XId "in"; XId "out"] [expr_tree e1; expr_tree e2]
    | SIfSome l b => GIf None (XEq false (lval_tree l) (XId "nil")) (map stmt_tree b) None
    | SIfNil l b1 b2 => GIf None (XEq true (lval_tree l) (XId "nil")) (map stmt_tree b1) (Some (map stmt_tree b2))
    | SForMap l b => GRange "key" (Some "val") (lval_tree l) (map stmt_tree b)
    | SForSlice l b => GRange "i" None (lval_tree l) (map stmt_tree b)
    | SCopy l1 l2 => GExpr (XCall (XId "copy") [lval_tree l1; lval_tree l2])
    | SInto l e => GExpr (call (lval_tree l) "DeepCopyInto" [expr_tree e])
    | SBlock b => GBlock (map stmt_tree b)
    end.
End Trees.

(** ** The methods of ObjectModel as trees *)
Section Methods.
  Variable qualifier : string -> option string.
  Variable bare : string -> string.
  Variable field_name : string -> nat -> string.
  Variable word_text : ImportModel.word -> string.
  Definition receiver (ptr : bool) (n : string) : string * gexpr := ("in", if ptr then XStar (XId n) else XId n).
  (** A body, where [in] is the address of the receiver *)
  Definition into_tree (n : string) (ptr : bool) (b : list stmt) : gfunc :=
    let body := map (stmt_tree qualifier bare (field_name n)) b in
    mkFunc (receiver ptr n) "DeepCopyInto" [("out", XStar (XId n))] None
      (if ptr then body else [GBlock (GSet true [XId "in"] [XAddr (XId "in")] :: body)]).
  (** if in == nil { return nil }; out := new(n); in.DeepCopyInto(out); return out, or *out *)
  Definition copy_tree (n : string) (ptr : bool) : gfunc :=
    mkFunc (receiver ptr n) "DeepCopy" [] (Some (if ptr then XStar (XId n) else XId n))
      [GIf None (XEq true (XId "in") (XId "nil")) [GReturn (XId "nil")] None;
       GSet true [XId "out"] [XCall (XId "new") [XId n]];
       GExpr (call (XId "in") "DeepCopyInto" [XId "out"]);
       GReturn (if ptr then XId "out" else XStar (XId "out"))].
  (** if c := in.DeepCopy(); c != nil { return c }; return nil; or return in.DeepCopy() *)
  Definition object_tree (n : string) (ptr : bool) (a : string) : gfunc :=
    mkFunc (receiver ptr n) "DeepCopyObject" [] (Some (XSel (XId a) "Object"))
      (if ptr then [GIf (Some (GSet true [XId "c"] [call (XId "in") "DeepCopy" []])) (XEq false (XId "c") (XId "nil")) [GReturn (XId "c")] None; GReturn (XId "nil")]
       else [GReturn (call (XId "in") "DeepCopy" [])]).
  Definition method_trees (n : string) (m : ObjectModel.written) : list gfunc :=
    match ObjectModel.w_into m with Some (ptr, b) => [into_tree n ptr b] | None => [] end ++
    match ObjectModel.w_copy m with Some ptr => [copy_tree n ptr] | None => [] end ++
    match ObjectModel.w_object m with Some (ptr, a) => [object_tree n ptr (word_text a)] | None => [] end.
  Definition file_tree (package : string) (f : ObjectModel.file) : gfile :=
    mkGFile package (map (fun i => (option_map word_text (fst i), word_text (snd i))) (ObjectModel.f_imports f))
      (flat_map (fun nm => method_trees (fst nm) (snd nm)) (ObjectModel.f_methods f)).
End Methods.

(** Text that is comments and blanks only *)
Inductive comments : string -> Prop :=
| co_nil : comments ""
| co_blank c s : In c [" "; "009"; "013"; "010"]%char -> comments s -> comments (String c s)
| co_line t s : all_chars (fun c => negb (Ascii.eqb c nl)) t = true -> comments s -> comments ("//" ++ t ++ String nl s)
| co_last t : all_chars (fun c => negb (Ascii.eqb c nl)) t = true -> comments ("//" ++ t)
| co_block t s : (forall a b, t <> (a ++ "*/" ++ b)%string) -> comments s -> comments ("/*" ++ t ++ "*/" ++ s).

(** The types in a body *)
Definition expr_types (e : expr) : list ty := match e with ENew t | EMake t _ => [t] | _ => [] end.
Fixpoint stmt_types (s : stmt) : list ty :=
  match s with
  | SSet _ e | SSetMap _ _ e | SLet _ e | SInto _ e => expr_types e
  | SVar _ t => [t]
  | SInOut e1 e2 => expr_types e1 ++ expr_types e2
  | SIfSome _ b | SForMap _ b | SForSlice _ b | SBlock b => flat_map stmt_types b
  | SIfNil _ b1 b2 => flat_map stmt_types b1 ++ flat_map stmt_types b2
  | SCopy _ _ => []
  end.
(** Types that have a name: no structs, interfaces, ... *)
Fixpoint nameable (t : ty) : Prop :=
  match t with
  | TBasic _ s => identifier s = true \/ s = "unsafe.Pointer"
  | TNamed _ => True
  | TPtr e | TSlice e => nameable e
  | TMap k e => nameable k /\ nameable e
  | TStruct _ | TOther _ => False
  end.
(** The basic types in a type are called by an identifier, or unsafe.Pointer *)
Fixpoint basics_fine (t : ty) : Prop :=
  match t with
  | TBasic _ s => identifier s = true \/ s = "unsafe.Pointer"
  | TNamed _ | TOther _ => True
  | TPtr e | TSlice e => basics_fine e
  | TMap k e => basics_fine k /\ basics_fine e
  | TStruct fs => fold_right (fun f P => basics_fine f /\ P) True fs
  end.
(** An import that can be written: the path needs no escapes, the alias is an identifier *)
Definition path_char (c : ascii) : bool := negb (Ascii.eqb c quote || Ascii.eqb c nl || Ascii.eqb c "\"%char).
Definition spec_fine (i : option string * string) : Prop := all_chars path_char (snd i) = true /\ forall a, fst i = Some a -> identifier a = true.
