(** * Model of marker argument parsing: pkg/markers/parse.go. Definitions only.

    Values are typed by the argument they are parsed for. Numbers (float64) are kept as the text given to
    strconv.ParseFloat; whether ParseFloat accepts it (range) is the oracle [float_ok]. Markers whose type has its own
    ParseMarker method are not modelled. Any error makes Parse fail, and its callers then drop the value
    (collect.go:119-123, genall/options.go:135-138), so results of failed parses are not modelled. *)

From Coq Require Import List String Ascii Bool Arith NArith ZArith.
From Verif Require Import GoLib ScanModel RegistryModel.
Import ListNotations.
Open Scope string_scope.
Open Scope list_scope.

(** [NoFuel]: the model's bound on recursion was too small (proved not to happen, see ParseProofs) *)
Inductive res (A : Type) := Ok (a : A) | Err | NoFuel.
Arguments Ok {A}. Arguments Err {A}. Arguments NoFuel {A}.
(** No Go counterpart: the checks for an error reported by the scanner, pkg/markers/parse.go:828-933 *)
Definition bind {A B} (r : res A) (f : A -> res B) : res B := match r with Ok a => f a | Err => Err | NoFuel => NoFuel end.
Notation "'do' x <- e ; f" := (bind e (fun x => f)) (at level 200, x pattern, f at level 200).
(** No Go counterpart: an error reported through scanner.Error, pkg/markers/parse.go:812-820 *)
Definition of_option {A} (o : option A) : res A := match o with Some a => Ok a | None => Err end.

(** pkg/markers/parse.go:78-117: ArgumentType and Argument; [AInt true] is parsed into an int32 *)
Inductive arg := AInvalid | AInt (is32 : bool) | ANum | AStr | ABool | AAny | ASlice (item : arg) | AMap (item : arg) | ARaw | APtr (a : arg).

(** What pkg/markers/parse.go:497-622 stores *)
Inductive value := VInt (z : Z) | VNum (text : string) | VStr (s : string) | VBool (b : bool) | VList (l : list value) | VMap (m : list (string * value)) | VRaw (s : string) | VPtr (v : value).

(** Go: reflect's conversion of an int to an int32. Below castAndSet, pkg/markers/parse.go:172-179. *)
Definition wrap32 (z : Z) : Z := ((z + 2 ^ 31) mod 2 ^ 32 - 2 ^ 31)%Z.
(** Below castAndSet, pkg/markers/parse.go:172-179 *)
Definition to_int (is32 : bool) (z : Z) : Z := if is32 then wrap32 z else z.

(** The comparisons of tokens, as at pkg/markers/parse.go:33-40 *)
Definition is_chr (t : token) (c : ascii) : bool := match t with TChar d => Ascii.eqb d c | _ => false end.
(** Assignment to scanner.Mode, pkg/markers/parse.go:263-375 *)
Definition with_nums (b : bool) (s : scanner) : scanner := mkScanner b (pos s) (rest s) (off s) (txt s).
(** scanner.Scan, as at pkg/markers/parse.go:33-40 *)
Definition scan' (s : scanner) : res (token * scanner) := of_option (scan s).
(** pkg/markers/parse.go:33-40 *)
Definition expect_chr (c : ascii) (s : scanner) : res scanner := do (t, s') <- scan' s; if is_chr t c then Ok s' else Err.

(** pkg/markers/parse.go:402: what ends a bare string *)
Definition bare_stop (h : option ascii) : bool :=
  match h with None => true | Some c => Ascii.eqb c "," || Ascii.eqb c ";" || Ascii.eqb c ":" || Ascii.eqb c "}" end.
(** pkg/markers/parse.go:402-405 *)
Fixpoint bare_loop (n : nat) (s : scanner) : res scanner :=
  match n with
  | O => NoFuel
  | S n' =>
      let '(h, s1) := peek_no_space s in
      if bare_stop h then Ok s1 else do (_, s2) <- scan' s1; bare_loop n' s2
  end.

(** Go: s[a:b]. As at pkg/markers/parse.go:377-411. *)
Definition slice (s : string) (a b : nat) : string := str_take (b - a) (str_drop a s).

(** pkg/markers/parse.go:377-408 *)
Definition parse_string (raw : string) (s : scanner) : res (string * scanner) :=
  let old := nums s in
  do (t, s1) <- scan' (with_nums false s);
  match t with
  | TString | TRawString => do v <- of_option (unquote (txt s1)); Ok (v, with_nums old s1)
  | _ =>
      do s2 <- bare_loop (S (String.length (rest s1))) s1;
      Ok (slice raw (off s1) (off s2 + String.length (txt s2)), with_nums old s2)
  end.

(** pkg/markers/parse.go:269-287: is there a ';' before the next ','? *)
Fixpoint look_semicolon (n : nat) (s : scanner) : res bool :=
  match n with
  | O => NoFuel
  | S n' =>
      do (t, s') <- scan' s;
      match t with
      | TEOF => Ok false
      | _ => if is_chr t "," then Ok false else if is_chr t ";" then Ok true else look_semicolon n' s'
      end
  end.

(** pkg/markers/parse.go:292-373: guessType without legacy slices, on the text that is left *)
Fixpoint guess (n : nat) (sub : string) : res arg :=
  match n with
  | O => NoFuel
  | S n' =>
      let '(h, s1) := peek_no_space (new_scanner sub) in
      let numeric :=
        do (t, s2) <- scan' s1;
        do (t', _) <- (if is_chr t "-" then scan' s2 else Ok (t, s2));
        match t' with TInt => Ok (AInt false) | TFloat => Ok ANum | _ => Ok AStr end in
      match h with
      | None => numeric
      | Some c =>
          if Ascii.eqb c dquote || Nat.eqb (code c) 39 || Ascii.eqb c "`" then Ok AStr
          else if Ascii.eqb c "{" then
            do (_, s2) <- scan' s1;
            let '(h2, s3) := peek_no_space s2 in
            do first <- guess n' (rest s3);
            match first with
            | AStr =>
                do (_, s4) <- parse_string sub s3;
                do (t, _) <- scan' s4;
                if is_chr t ":" || match h2 with Some c2 => Ascii.eqb c2 "}" | None => false end
                then Ok (AMap AAny) else Ok (ASlice first)
            | _ => Ok (ASlice first)
            end
          else if Ascii.eqb c "t" || Ascii.eqb c "f" then
            do (t, s2) <- scan' s1;
            match t with
            | TIdent => if String.eqb (txt s2) "true" || String.eqb (txt s2) "false" then Ok ABool else Ok AStr
            | _ => Err
            end
          else numeric
      end
  end.
(** pkg/markers/parse.go:263-290 *)
Definition guess_type (sub : string) (allow_slice : bool) : res arg :=
  do item <- guess (S (String.length sub)) sub;
  if allow_slice then
    do semi <- look_semicolon (S (String.length sub)) (new_scanner sub);
    Ok (if semi then ASlice item else item)
  else Ok item.

(** pkg/markers/parse.go:182-255 makeSliceType, makeMapType: can a value of the guessed type be made? *)
Fixpoint makeable (in_slice : bool) (a : arg) : bool :=
  match a with
  | AInt _ | ANum | AStr | ABool => true
  | ASlice b => makeable true b
  | AMap b => makeable false b
  | AAny => negb in_slice
  | AInvalid | ARaw | APtr _ => false
  end.
(** pkg/markers/parse.go:182-255 *)
Definition guess_makeable (a : arg) : bool :=
  match a with ASlice b => makeable true b | AMap b => makeable false b | _ => true end.

(** pkg/markers/parse.go:510-517 *)
Fixpoint scan_all (n : nat) (s : scanner) : res scanner :=
  match n with
  | O => NoFuel
  | S n' => do (t, s') <- scan' s; match t with TEOF => Ok s' | _ => scan_all n' s' end
  end.

(** pkg/markers/parse.go:521-526, 545-550: a leading '-' *)
Definition eat_minus (s : scanner) : res (bool * scanner) :=
  match peek s with
  | Some c => if Ascii.eqb c "-" then do (_, s') <- scan' s; Ok (true, s') else Ok (false, s)
  | None => Ok (false, s)
  end.

(** The comparisons with the end and with separators, pkg/markers/parse.go:377-411 *)
Definition at_end (h : option ascii) (stops : list ascii) : bool :=
  match h with None => true | Some c => existsb (Ascii.eqb c) stops end.

Section Parse.
  Variable float_ok : string -> bool.

  (** pkg/markers/parse.go:497-620 *)
  Fixpoint parse (n : nat) (a : arg) (in_slice : bool) (raw : string) (s : scanner) {struct n} : res (value * scanner) :=
    match n with
    | O => NoFuel
    | S n' =>
        match a with
        | AInvalid => Err
        | APtr b => do (v, s') <- parse n' b in_slice raw s; Ok (VPtr v, s')
        | ARaw => do s' <- scan_all (S (String.length (rest s))) s; Ok (VRaw (str_drop (pos s) raw), s')
        | ANum =>
            do (neg, s1) <- eat_minus s;
            do (t, s2) <- scan' s1;
            match t with
            | TInt | TFloat =>
                let text := if neg : bool then ("-" ++ txt s2)%string else txt s2 in
                if float_ok text then Ok (VNum text, s2) else Err
            | _ => Err
            end
        | AInt is32 =>
            do (neg, s1) <- eat_minus s;
            do (t, s2) <- scan' s1;
            match t with
            | TInt => do z <- of_option (atoi (if neg : bool then ("-" ++ txt s2)%string else txt s2)); Ok (VInt (to_int is32 z), s2)
            | _ => Err
            end
        | AStr => do (v, s') <- parse_string raw s; Ok (VStr v, s')
        | ABool =>
            do (t, s') <- scan' s;
            match t with
            | TIdent => if String.eqb (txt s') "true" then Ok (VBool true, s') else if String.eqb (txt s') "false" then Ok (VBool false, s') else Err
            | _ => Err
            end
        | AAny =>
            do g <- guess_type (rest s) (negb in_slice);
            if guess_makeable g then parse n' g false raw s else Err
        | ASlice b =>
            let '(h, s1) := peek_no_space s in
            if match h with Some c => Ascii.eqb c "{" | None => false end then
              do (_, s2) <- scan' s1;
              do (l, s3) <- parse_items n' b raw s2;
              do s4 <- expect_chr "}" s3;
              Ok (VList l, s4)
            else do (l, s2) <- parse_legacy n' b raw s1; Ok (VList l, s2)
        | AMap b =>
            do s1 <- expect_chr "{" s;
            do (m, s2) <- parse_pairs n' b raw s1 [];
            do s3 <- expect_chr "}" s2;
            Ok (VMap m, s3)
        end
    end
  (** pkg/markers/parse.go:427-437: the items of a slice in braces *)
  with parse_items (n : nat) (b : arg) (raw : string) (s : scanner) {struct n} : res (list value * scanner) :=
    match n with
    | O => NoFuel
    | S n' =>
        let '(h, s1) := peek_no_space s in
        if at_end h ["}"%char] then Ok ([], s1)
        else
          do (v, s2) <- parse n' b true raw s1;
          let '(h2, s3) := peek_no_space s2 in
          if match h2 with Some c => Ascii.eqb c "}" | None => false end then Ok ([v], s3)
          else
            do s4 <- expect_chr "," s3;
            do (l, s5) <- parse_items n' b raw s4;
            Ok (v :: l, s5)
    end
  (** pkg/markers/parse.go:446-458: items separated by ';' *)
  with parse_legacy (n : nat) (b : arg) (raw : string) (s : scanner) {struct n} : res (list value * scanner) :=
    match n with
    | O => NoFuel
    | S n' =>
        let '(h, s1) := peek_no_space s in
        if at_end h [","%char; "}"%char] then Ok ([], s1)
        else
          do (v, s2) <- parse n' b true raw s1;
          let '(h2, s3) := peek_no_space s2 in
          if at_end h2 [","%char; "}"%char] then Ok ([v], s3)
          else
            do (_, s4) <- scan' s3;
            if match h2 with Some c => Ascii.eqb c ";" | None => false end then
              do (l, s5) <- parse_legacy n' b raw s4;
              Ok (v :: l, s5)
            else Err
    end
  (** pkg/markers/parse.go:472-488: the entries of a map *)
  with parse_pairs (n : nat) (b : arg) (raw : string) (s : scanner) (m : list (string * value)) {struct n} : res (list (string * value) * scanner) :=
    match n with
    | O => NoFuel
    | S n' =>
        let '(h, s1) := peek_no_space s in
        if at_end h ["}"%char] then Ok (m, s1)
        else
          do (k, s2) <- parse_string raw s1;
          do s3 <- expect_chr ":" s2;
          do (v, s4) <- parse n' b false raw s3;
          let m := mset String.eqb m k v in
          let '(h2, s5) := peek_no_space s4 in
          if match h2 with Some c => Ascii.eqb c "}" | None => false end then Ok (m, s5)
          else
            do s6 <- expect_chr "," s5;
            parse_pairs n' b raw s6 m
    end.

  Fixpoint arg_size (a : arg) : nat := match a with ASlice b | AMap b | APtr b => S (arg_size b) | _ => 1 end.
  (** Enough recursion for a text of this length. No Go counterpart: bounds the recursion of
      pkg/markers/parse.go:497-622. *)
  Definition fuel (a : arg) (text : string) : nat := let n := String.length text + 4 in 2 * arg_size a + 2 * n + n * n.
  (** pkg/markers/parse.go:624-626 *)
  Definition parse_arg (a : arg) (raw : string) (s : scanner) : res (value * scanner) := parse (fuel a (rest s)) a false raw s.

  (** ** Definitions *)

  (** pkg/markers/parse.go:710-728: per argument name, the field of the output it sets ("": the output itself) *)
  Record field := mkField { f_name : string; f_arg : arg; f_optional : bool }.
  (** pkg/markers/parse.go:710-728 *)
  Record definition := mkDefinition { d_fields : list (string * field); d_strict : bool }.

  (** pkg/markers/parse.go:733-739 *)
  Definition anonymous_field (d : definition) : bool :=
    match d_fields d with [(k, _)] => String.eqb k "" | _ => false end.
  (** pkg/markers/parse.go:742-744 *)
  Definition no_fields (d : definition) : bool := match d_fields d with [] => true | _ => false end.

  (** pkg/markers/parse.go:871-912: the fields set, with the arguments seen *)
  Fixpoint named_args (n : nat) (d : definition) (raw : string) (s : scanner) (seen : list string) (out : list (string * value)) : res (list string * list (string * value) * scanner) :=
    match n with
    | O => NoFuel
    | S n' =>
        do (t, s1) <- scan' s;
        match t with
        | TIdent =>
            let name := txt s1 in
            do s2 <- expect_chr "=" s1;
            match mget String.eqb (d_fields d) name with
            | None => Err
            | Some f =>
                do (v, s3) <- parse_arg (f_arg f) raw s2;
                let seen := name :: seen in
                let out := mset String.eqb out (f_name f) v in
                match peek s3 with
                | None => Ok (seen, out, s3)
                | Some _ => do s4 <- expect_chr "," s3; named_args n' d raw s4 seen out
                end
            end
        | _ => Err
        end
    end.

  (** pkg/markers/parse.go:845-928 on the text of the arguments *)
  Definition parse_fields (d : definition) (fields : string) : res (list (string * value)) :=
    let s := new_scanner fields in
    do (seen, out, s') <-
      (if anonymous_field d && match peek s with Some _ => true | None => false end then
         match d_fields d with
         | (_, f) :: _ => do (v, s') <- parse_arg (f_arg f) fields s; Ok ([""], [(f_name f, v)], s')
         | [] => Err
         end
       else if negb (no_fields d) && match peek s with Some _ => true | None => false end then
         named_args (S (String.length fields)) d fields s [] []
       else Ok ([], [], s));
    do (t, _) <- scan' s';
    match t with
    | TEOF => if d_strict d && negb (forallb (fun kf => f_optional (snd kf) || mem_str (fst kf) seen) (d_fields d)) then Err else Ok out
    | _ => Err
    end.

  (** pkg/markers/parse.go:828-928; None: the slice expression of splitMarker panics *)
  Definition parse_marker (d : definition) (raw : string) : option (res (list (string * value))) :=
    option_map (parse_fields d) (argument_text (negb (anonymous_field d) && negb (no_fields d)) raw).
End Parse.

(** ** Definitions from Go types *)

(** What reflect tells of a type; [GOther]: any kind not listed. The argument of pkg/markers/parse.go:631-708. *)
Inductive gotype := GRaw | GAny | GString | GInt | GInt32 | GFloat64 | GBool | GSlice (t : gotype) | GMap (key : gotype) (t : gotype) | GPtr (t : gotype) | GOther.
(** The kind of a named type is that of its definition; RawArguments itself is a slice of bytes.
    pkg/markers/parse.go:631-708. *)
Fixpoint argument_from_type (t : gotype) : option arg :=
  match t with
  | GRaw => Some ARaw
  | GAny => Some AAny
  | GString => Some AStr
  | GInt => Some (AInt false)
  | GInt32 => Some (AInt true)
  | GFloat64 => Some ANum
  | GBool => Some ABool
  | GSlice u => option_map ASlice (argument_from_type u)
  | GMap k u => match k with GString => option_map AMap (argument_from_type u) | _ => None end
  | GPtr u =>
      match u with
      | GString => Some (APtr AStr) | GInt => Some (APtr (AInt false)) | GInt32 => Some (APtr (AInt true)) | GFloat64 => Some (APtr ANum) | GBool => Some (APtr ABool)
      | GSlice w => option_map (fun b => APtr (ASlice b)) (argument_from_type w)
      | GMap k w => match k with GString => option_map (fun b => APtr (AMap b)) (argument_from_type w) | _ => None end
      | GRaw | GAny | GPtr _ | GOther => None
      end
  | GOther => None
  end.

(** Go: unicode.ToLower on ASCII. pkg/markers/parse.go:59-72. *)
Definition lower_camel_case (s : string) : string := match s with EmptyString => "" | String a s' => String (lower a) s' end.

(** A field of a struct: name, type, the value of its `marker` tag, exported. The fields that
    pkg/markers/parse.go:768-809 ranges over. *)
Record sfield := mkSField { sf_name : string; sf_type : gotype; sf_tag : option string; sf_exported : bool }.

(** pkg/markers/parse.go:749-765 *)
Definition argument_info (f : sfield) : string * bool :=
  let parts := split_char "," (match sf_tag f with Some t => t | None => "" end) in
  (match hd "" parts with EmptyString => lower_camel_case (sf_name f) | name => name end, existsb (String.eqb "optional") (tl parts)).

(** Definition.Output, pkg/markers/parse.go:710-728 *)
Inductive output := OStruct (fields : list sfield) | OOther (t : gotype).

(** pkg/markers/parse.go:768-809; 935-948 with Strict; None: an error *)
Definition is_ptr (a : arg) : bool := match a with APtr _ => true | _ => false end.
(** pkg/markers/parse.go:784-809 *)
Fixpoint load_struct (fs : list sfield) (acc : list (string * field)) : option (list (string * field)) :=
  match fs with
  | [] => Some acc
  | f :: fs' =>
      if negb (sf_exported f) then load_struct fs' acc
      else
        let '(name, opt) := argument_info f in
        match argument_from_type (sf_type f) with
        | None | Some ARaw => None
        | Some a => load_struct fs' (mset String.eqb acc name (mkField (sf_name f) a (opt || is_ptr a)))
        end
  end.
(** pkg/markers/parse.go:935-948 *)
Definition make_definition (o : output) : option definition :=
  match o with
  | OStruct fs => option_map (fun l => mkDefinition l true) (load_struct fs [])
  | OOther t => option_map (fun a => mkDefinition [("", mkField "" a (is_ptr a))] true) (argument_from_type t)
  end.
(** pkg/markers/parse.go:953-961; a missing "value" argument gives the zero Argument, whose type is invalid *)
Definition make_any_definition (o : output) : option definition :=
  option_map (fun d =>
    mkDefinition [("", match mget String.eqb (d_fields d) "value" with Some f => mkField "Value" (f_arg f) (f_optional f) | None => mkField "Value" AInvalid false end)] (d_strict d))
    (make_definition o).

(** ** Quick checks (the properties are in ParseProps). Definition.Parse, pkg/markers/parse.go:828-933, for one value
    of any type. *)
Definition any_value (s : string) := parse_fields (fun _ => true) (mkDefinition [("", mkField "" AAny false)] true) s.
