(** * What a Go file of Help methods means: tokens with automatic semicolons, composite literals, and the value that each method returns *)

From Coq Require Import List String Ascii Bool Arith.
From Verif Require Import GoLib ScanModel HelpModel.
Import ListNotations.
Open Scope string_scope.
Open Scope list_scope.

(** ** Tokens, one character at a time *)
Inductive gtok := Word (w : string) | Str (v : string) | Sym (c : ascii) | Semi.
(** [e]: the last token lets a line end *)
Inductive lstate :=
| Between (e : bool) | InWord (w : string) | InStr (raw : string) (escaped : bool) | Slash (e : bool) | Line (e : bool) | Block (e star : bool).

Definition closing (a : ascii) : bool := Ascii.eqb a ")" || Ascii.eqb a "]" || Ascii.eqb a "}".
Definition begin (e : bool) (a : ascii) : list gtok * lstate :=
  if Ascii.eqb a newline then (if e then [Semi] else [], Between false)
  else if is_blank a then ([], Between e)
  else if is_letter a then ([], InWord (String a ""))
  else if Ascii.eqb a dquote then ([], InStr "" false)
  else if Ascii.eqb a "/" then ([], Slash e)
  else ([Sym a], Between (closing a)).
Definition step (st : lstate) (a : ascii) : option (list gtok * lstate) :=
  match st with
  | Between e => Some (begin e a)
  | InWord w =>
      if is_ident a then Some ([], InWord (w ++ String a ""))
      else let '(ts, st') := begin true a in Some (Word w :: ts, st')
  | InStr raw true => Some ([], InStr (raw ++ String a "") false)
  | InStr raw false =>
      if Ascii.eqb a dquote then match unquote_body raw with Some v => Some ([Str v], Between true) | None => None end
      else if Ascii.eqb a newline then None
      else Some ([], InStr (raw ++ String a "") (Ascii.eqb a backslash))
  | Slash e => if Ascii.eqb a "/" then Some ([], Line e) else if Ascii.eqb a "*" then Some ([], Block e false) else None
  | Line e => if Ascii.eqb a newline then Some (begin e a) else Some ([], Line e)
  | Block e star =>
      if star && Ascii.eqb a "/" then Some ([], Between e)
      else if Ascii.eqb a newline && e then Some ([Semi], Block false false)
      else Some ([], Block e (Ascii.eqb a "*"))
  end.
Definition finish (st : lstate) : option (list gtok) :=
  match st with
  | Between e | Line e => Some (if e then [Semi] else [])
  | InWord w => Some [Word w; Semi]
  | _ => None
  end.
Fixpoint lex (st : lstate) (s : string) : option (list gtok) :=
  match s with
  | EmptyString => finish st
  | String a s' =>
      match step st a with
      | Some (ts, st') => option_map (app ts) (lex st' s')
      | None => None
      end
  end.
Definition tokens (s : string) : option (list gtok) := lex (Between false) s.

(** Nothing but comments and white space *)
Definition comments (s : string) : Prop := tokens s = Some [].

(** ** Literals *)
Definition tok_eqb (a b : gtok) : bool :=
  match a, b with
  | Word x, Word y | Str x, Str y => String.eqb x y
  | Sym x, Sym y => Ascii.eqb x y
  | Semi, Semi => true
  | _, _ => false
  end.
Inductive lit := LStr (v : string) | LComp (pointer : bool) (type : list gtok) (elems : list (gtok * lit)).

Fixpoint strip (p ts : list gtok) : option (list gtok) :=
  match p, ts with
  | [], _ => Some ts
  | x :: p', t :: ts' => if tok_eqb x t then strip p' ts' else None
  | _, [] => None
  end.
(** The tokens before the first brace *)
Fixpoint until_brace (ts : list gtok) : list gtok * list gtok :=
  match ts with
  | [] => ([], [])
  | t :: ts' => if tok_eqb t (Sym "{") then ([], ts) else let '(a, b) := until_brace ts' in (t :: a, b)
  end.
(** An expression: a string, or a composite literal, maybe with &; and its elements, with a comma after each but perhaps the last *)
Fixpoint expr (n : nat) (ts : list gtok) {struct n} : option (lit * list gtok) :=
  match n with
  | O => None
  | S n =>
      match ts with
      | Str v :: r => Some (LStr v, r)
      | _ =>
          let '(p, ts) := match strip [Sym "&"] ts with Some r => (true, r) | None => (false, ts) end in
          let '(ty, r) := until_brace ts in
          match strip [Sym "{"] r with
          | Some r => match elems n r with Some (es, r) => Some (LComp p ty es, r) | None => None end
          | None => None
          end
      end
  end
with elems (n : nat) (ts : list gtok) {struct n} : option (list (gtok * lit) * list gtok) :=
  match n with
  | O => None
  | S n =>
      match strip [Sym "}"] ts with
      | Some r => Some ([], r)
      | None =>
          match ts with
          | k :: r =>
              match strip [Sym ":"] r with
              | Some r =>
                  match expr n r with
                  | Some (v, r) =>
                      match strip [Sym ","] r with
                      | Some r => match elems n r with Some (es, r) => Some ((k, v) :: es, r) | None => None end
                      | None => match strip [Sym "}"] r with Some r => Some ([(k, v)], r) | None => None end
                      end
                  | None => None
                  end
              | None => None
              end
          | [] => None
          end
      end
  end.

(** ** Values *)
Definition mem (k : gtok) (ks : list gtok) : bool := existsb (tok_eqb k) ks.
Fixpoint distinct (ks : list gtok) : bool := match ks with [] => true | k :: ks' => negb (mem k ks') && distinct ks' end.
Definition field (es : list (gtok * lit)) (name : string) : option lit := mget tok_eqb es (Word name).
Definition str_field (es : list (gtok * lit)) (name : string) : option string :=
  match field es name with None => Some "" | Some (LStr v) => Some v | Some _ => None end.
(** Every key is one of the fields of the struct, and is there once *)
Definition struct_keys (names : list string) (es : list (gtok * lit)) : bool :=
  distinct (map fst es) && forallb (fun k => mem k (map Word names)) (map fst es).
Definition same (a b : list gtok) : bool := match strip a b with Some [] => true | _ => false end.

Definition detailed_type : list gtok := [Word "markers"; Sym "."; Word "DetailedHelp"].
Definition definition_type : list gtok := [Word "markers"; Sym "."; Word "DefinitionHelp"].
Definition map_type : list gtok := [Word "map"; Sym "["; Word "string"; Sym "]"] ++ detailed_type.

(** DetailedHelp; [elided]: the type may be left out, in a map *)
Definition detail_value (elided : bool) (l : lit) : option detail :=
  match l with
  | LComp false ty es =>
      if (same ty detailed_type || (elided && same ty [])) && struct_keys ["Summary"; "Details"] es
      then match str_field es "Summary", str_field es "Details" with Some s, Some d => Some (mkDetail s d) | _, _ => None end
      else None
  | _ => None
  end.
Fixpoint map_values (es : list (gtok * lit)) : option (list (string * detail)) :=
  match es with
  | [] => Some []
  | (Str k, v) :: es' =>
      match detail_value true v, map_values es' with Some d, Some m => Some ((k, d) :: m) | _, _ => None end
  | _ => None
  end.
(** A map literal; Go refuses one with a key twice *)
Definition map_value (l : lit) : option (list (string * detail)) :=
  match l with
  | LComp false ty es => if same ty map_type && distinct (map fst es) then map_values es else None
  | _ => None
  end.
Definition help_value (l : lit) : option dhelp :=
  match l with
  | LComp true ty es =>
      if same ty definition_type && struct_keys ["Category"; "DetailedHelp"; "FieldHelp"] es
      then match str_field es "Category",
                 match field es "DetailedHelp" with None => Some detail0 | Some v => detail_value false v end,
                 match field es "FieldHelp" with None => Some [] | Some v => map_value v end with
           | Some c, Some d, Some m => Some (mkDHelp d c None m)
           | _, _, _ => None
           end
      else None
  | _ => None
  end.

(** ** Files *)
(** func (T) Help() *markers.DefinitionHelp { return v } *)
Definition method (n : nat) (ts : list gtok) : option (string * dhelp * list gtok) :=
  match strip [Word "func"; Sym "("] ts with
  | Some (Word t :: r) =>
      match strip ([Sym ")"; Word "Help"; Sym "("; Sym ")"; Sym "*"] ++ definition_type ++ [Sym "{"; Word "return"]) r with
      | Some r =>
          match expr n r with
          | Some (v, r) =>
              match strip [Semi; Sym "}"; Semi] r, help_value v with
              | Some r, Some h => Some (t, h, r)
              | _, _ => None
              end
          | None => None
          end
      | None => None
      end
  | _ => None
  end.
Fixpoint methods (n : nat) (ts : list gtok) : option (list (string * dhelp)) :=
  match n with
  | O => None
  | S n =>
      match ts with
      | [] => Some []
      | _ => match method n ts with
             | Some (t, h, r) => match methods n r with Some l => Some ((t, h) :: l) | None => None end
             | None => None
             end
      end
  end.
(** The name of the package and the methods; markers is what the file means by it *)
Definition go_file (s : string) : option (string * list (string * dhelp)) :=
  match tokens s with
  | Some (Word k :: Word p :: ts) =>
      if String.eqb k "package" then
        match strip [Semi; Word "import"; Sym "("; Str "sigs.k8s.io/controller-tools/pkg/markers"; Semi; Sym ")"; Semi] ts with
        | Some r => option_map (pair p) (methods (S (List.length r)) r)
        | None => None
        end
      else None
  | _ => None
  end.


(** ** The help that godoc gives *)
Definition all_space (s : string) : Prop := forall x a y, s = (x ++ String a y)%string -> In (nat_of_ascii a) [9; 10; 11; 12; 13; 32].
(** [t] is [s] without the white space around it *)
Definition trimmed (s t : string) : Prop :=
  exists x y, s = (x ++ t ++ y)%string /\ all_space x /\ all_space y /\
  (forall a r, t = String a r -> ~ In (nat_of_ascii a) [9; 10; 11; 12; 13; 32]) /\
  (forall a r, t = (r ++ String a "")%string -> ~ In (nat_of_ascii a) [9; 10; 11; 12; 13; 32]).
Definition one_line (s : string) : Prop := forall x y, s <> (x ++ String newline y)%string.
(** The summary is the first line, without the name if that is its first word; the details are the other lines *)
Definition godoc (name doc : string) (d : detail) : Prop :=
  exists line, one_line line /\
  (doc = line /\ details d = "" \/ exists rest, doc = (line ++ String newline rest)%string /\ trimmed rest (details d)) /\
  (line = name /\ summary d = "" \/ line = (name ++ " " ++ summary d)%string \/
   line <> name /\ (forall s, line <> (name ++ " " ++ s)%string) /\ summary d = line).

Definition identifier (s : string) : Prop :=
  exists a r, s = String a r /\ is_letter a = true /\ forall x b y, r = (x ++ String b y)%string -> is_ident b = true.
