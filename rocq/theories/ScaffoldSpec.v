(** * What type-scaffold's output is read back as (C62).

    A reader of the Go that matters here: comment groups, and struct types whose bodies are indented by a tab. *)
From Coq Require Import List String Ascii Bool.
From Verif Require Import GoLib.
Import ListNotations.
Open Scope string_scope.
Open Scope list_scope.

(** A line of a struct's body *)
Inductive bodyline := BComment (s : string) | BBlank | BField (s : string).
(** A type declaration: the comment groups set off above it by blank lines, its own comment, its name, its body *)
Record decl := mkDecl { d_above : list (list string); d_doc : list string; d_name : string; d_body : list bodyline }.

Definition nl : ascii := ascii_of_nat 10.
Definition tab : ascii := ascii_of_nat 9.
(** Letters, digits and underscore, in ASCII *)
Definition word_char (c : ascii) : bool :=
  let n := nat_of_ascii c in
  (Nat.leb 65 n && Nat.leb n 90) || (Nat.leb 97 n && Nat.leb n 122) || (Nat.leb 48 n && Nat.leb n 57) || Nat.eqb n 95.
Fixpoint span (p : ascii -> bool) (s : string) : string * string :=
  match s with
  | EmptyString => (EmptyString, EmptyString)
  | String c s' => if p c then let '(a, b) := span p s' in (String c a, b) else (EmptyString, s)
  end.
(** What follows a prefix *)
Fixpoint strip (pre s : string) : option string :=
  match pre, s with
  | EmptyString, _ => Some s
  | String a p, String b t => if Ascii.eqb a b then strip p t else None
  | _, _ => None
  end.
(** An identifier of Go, in ASCII *)
Definition identifier (s : string) : bool :=
  match s with
  | EmptyString => false
  | String c _ => let n := nat_of_ascii c in String.eqb (snd (span word_char s)) "" && negb (Nat.leb 48 n && Nat.leb n 57)
  end.

(** "type X struct {" *)
Definition type_line (s : string) : option string :=
  match strip "type " s with
  | Some t => let '(x, rest) := span word_char t in if identifier x && String.eqb rest " struct {" then Some x else None
  | None => None
  end.
(** A line of a body: nothing, or something behind a tab *)
Definition body_line (s : string) : option bodyline :=
  match s with
  | EmptyString => Some BBlank
  | String c t => if Ascii.eqb c tab then Some (match strip "// " t with Some u => BComment u | None => BField t end) else None
  end.

(** [inside]: the declaration whose body is being read, with the lines of it so far, last first.
    [above], [cur]: the comment groups so far and the one being read, last first. *)
Fixpoint read_decls (lines : list string) (above : list (list string)) (cur : list string) (inside : option (decl * list bodyline)) : option (list decl) :=
  match lines with
  | [] => match above, cur, inside with [], [], None => Some [] | _, _, _ => None end
  | s :: lines' =>
      match inside with
      | Some (d, acc) =>
          if String.eqb s "}" then
            match read_decls lines' [] [] None with
            | Some ds => Some (mkDecl (d_above d) (d_doc d) (d_name d) (rev acc) :: ds)
            | None => None
            end
          else match body_line s with Some b => read_decls lines' [] [] (Some (d, b :: acc)) | None => None end
      | None =>
          if String.eqb s "" then read_decls lines' (match cur with [] => above | _ => rev cur :: above end) [] None
          else match strip "// " s with
          | Some u => read_decls lines' above (u :: cur) None
          | None =>
              match type_line s with
              | Some x => read_decls lines' [] [] (Some (mkDecl (rev above) (rev cur) x [], []))
              | None => None
              end
          end
      end
  end.
(** The declarations of a text; None if there is something else in it *)
Definition declarations (text : string) : option (list decl) := read_decls (split_char nl text) [] [] None.

(** ** What should be declared *)
(** The lines of the help text, if there is one *)
Definition help_lines (help : string) : list bodyline := if String.eqb help "" then [] else map BComment (split_char nl help).
Definition object_marker : string := "+k8s:deepcopy-gen:interfaces=k8s.io/apimachinery/pkg/runtime.Object".
Definition scaffolded (kind resource help : string) (namespaced clients : bool) : list decl :=
  [mkDecl [] [kind ++ "Spec defines the desired state of " ++ kind] (kind ++ "Spec")
     (BComment "INSERT ADDITIONAL SPEC FIELDS -- desired state of cluster" :: help_lines help);
   mkDecl [] [kind ++ "Status defines the observed state of " ++ kind ++ ".";
              "It should always be reconstructable from the state of the cluster and/or outside world."] (kind ++ "Status")
     (BComment "INSERT ADDITIONAL STATUS FIELDS -- observed state of cluster" :: help_lines help);
   mkDecl [([object_marker] ++ (if clients then ["+genclient"] else []) ++ (if clients && negb namespaced then ["+genclient:nonNamespaced"] else []))%list]
     [kind ++ " is the Schema for the " ++ resource ++ " API"; "+k8s:openapi-gen=true"] kind
     [BField "metav1.TypeMeta   `json:"",inline""`"; BField "metav1.ObjectMeta `json:""metadata,omitempty""`"; BBlank;
      BField ("Spec   " ++ kind ++ "Spec   `json:""spec,omitempty""`"); BField ("Status " ++ kind ++ "Status `json:""status,omitempty""`")];
   mkDecl [([object_marker] ++ (if clients && negb namespaced then ["+genclient:nonNamespaced"] else []))%list]
     [kind ++ "List contains a list of " ++ kind] (kind ++ "List")
     [BField "metav1.TypeMeta `json:"",inline""`"; BField "metav1.ListMeta `json:""metadata,omitempty""`";
      BField ("Items           []" ++ kind ++ " `json:""items""`")]]%string.
