(** * What is written for values of the known types, the grammar of quantities, and regular expressions.
    From the documentation of k8s.io/apimachinery and of regular expressions; independent of the schemas. *)

From Coq Require Import List String Ascii Bool ZArith QArith.
From Verif Require Import GoLib SchemaModel ValidSpec.
Import ListNotations.
Open Scope string_scope.
Open Scope list_scope.

(** ** Quantities, k8s.io/apimachinery/pkg/api/resource/quantity.go:

<<
<quantity>        ::= <signedNumber><suffix>
<digit>           ::= 0 | 1 | ... | 9
<digits>          ::= <digit> | <digit><digits>
<number>          ::= <digits> | <digits>.<digits> | <digits>. | .<digits>
<sign>            ::= "+" | "-"
<signedNumber>    ::= <number> | <sign><number>
<suffix>          ::= <binarySI> | <decimalExponent> | <decimalSI>
<binarySI>        ::= Ki | Mi | Gi | Ti | Pi | Ei
<decimalSI>       ::= n | u | m | "" | k | M | G | T | P | E
<decimalExponent> ::= "e" <signedNumber> | "E" <signedNumber>
>> *)
Definition digit (c : ascii) : bool := Nat.leb 48 (nat_of_ascii c) && Nat.leb (nat_of_ascii c) 57.
Inductive digits : string -> Prop :=
| one_digit c : digit c = true -> digits (String c "")
| more_digits c s : digit c = true -> digits s -> digits (String c s).
Inductive number : string -> Prop :=
| n_whole a : digits a -> number a
| n_both a b : digits a -> digits b -> number (a ++ "." ++ b)
| n_point a : digits a -> number (a ++ ".")
| n_fraction b : digits b -> number ("." ++ b).
Inductive signed_number : string -> Prop :=
| s_none a : number a -> signed_number a
| s_plus a : number a -> signed_number ("+" ++ a)
| s_minus a : number a -> signed_number ("-" ++ a).
Inductive suffix : string -> Prop :=
| binary_si s : In s ["Ki"; "Mi"; "Gi"; "Ti"; "Pi"; "Ei"] -> suffix s
| decimal_si s : In s ["n"; "u"; "m"; ""; "k"; "M"; "G"; "T"; "P"; "E"] -> suffix s
| exponent_e a : signed_number a -> suffix ("e" ++ a)
| exponent_E a : signed_number a -> suffix ("E" ++ a).
Inductive quantity_text : string -> Prop :=
| q_text a b : signed_number a -> suffix b -> quantity_text (a ++ b).

(** ** Regular expressions *)
Inductive regex :=
| REmpty | RClass (ranges : list (ascii * ascii)) | RCat (a b : regex) | RAlt (a b : regex) | ROpt (a : regex) | RStar (a : regex)
| RPlus (a : regex) | RBegin | REnd.

(** Any number of matches, one after the other: what is before, what is matched, what is after. *)
Inductive many (P : string -> string -> string -> Prop) : string -> string -> string -> Prop :=
| many_none pre post : many P pre "" post
| many_more pre a b post : P pre a (b ++ post)%string -> many P (pre ++ a) b post -> many P pre (a ++ b) post.

Definition in_range (c : ascii) (r : ascii * ascii) : bool :=
  Nat.leb (nat_of_ascii (fst r)) (nat_of_ascii c) && Nat.leb (nat_of_ascii c) (nat_of_ascii (snd r)).

Fixpoint matches (r : regex) (pre s post : string) : Prop :=
  match r with
  | REmpty => s = ""
  | RClass ranges => exists c, s = String c "" /\ existsb (in_range c) ranges = true
  | RCat a b => exists x y, s = (x ++ y)%string /\ matches a pre x (y ++ post) /\ matches b (pre ++ x) y post
  | RAlt a b => matches a pre s post \/ matches b pre s post
  | ROpt a => s = "" \/ matches a pre s post
  | RStar a => many (matches a) pre s post
  | RPlus a => exists x y, s = (x ++ y)%string /\ matches a pre x (y ++ post) /\ many (matches a) (pre ++ x) y post
  | RBegin => s = "" /\ pre = ""
  | REnd => s = "" /\ post = ""
  end.

(** The syntax, without counted repetitions, negated classes and escapes that are not of punctuation. *)
Definition punctuation (c : ascii) : bool := mem_str (String c "") ["\"; "."; "+"; "*"; "?"; "("; ")"; "|"; "["; "]"; "{"; "}"; "^"; "$"].
Fixpoint class_of (fuel : nat) (s : string) : option (list (ascii * ascii) * string) :=
  match fuel with
  | O => None
  | S n =>
      match s with
      | String "]" s' => Some ([], s')
      | String "[" _ | String "\" _ | String "^" _ | String "-" _ => None
      | String a (String "-" (String b s')) => if Ascii.eqb b "]" then None else match class_of n s' with Some (l, t) => Some ((a, b) :: l, t) | None => None end
      | String a s' => match class_of n s' with Some (l, t) => Some ((a, a) :: l, t) | None => None end
      | "" => None
      end
  end.
(** What follows an atom. *)
Fixpoint repeated (fuel : nat) (r : regex) (s : string) : regex * string :=
  match fuel with
  | O => (r, s)
  | S n => match s with String "?" s' => repeated n (ROpt r) s' | String "*" s' => repeated n (RStar r) s' | String "+" s' => repeated n (RPlus r) s' | _ => (r, s) end
  end.
Definition char (c : ascii) : regex := RClass [(c, c)].
(** Alternatives, up to a closing parenthesis or the end. *)
Fixpoint alternatives (fuel : nat) (s : string) : option (regex * string) :=
  match fuel with
  | O => None
  | S n =>
      match sequence n REmpty s with
      | Some (a, String "|" s') => match alternatives n s' with Some (b, t) => Some (RAlt a b, t) | None => None end
      | x => x
      end
  end
with sequence (fuel : nat) (acc : regex) (s : string) : option (regex * string) :=
  match fuel with
  | O => None
  | S n =>
      let continue r s' := let '(r', t) := repeated n r s' in sequence n (RCat acc r') t in
      match s with
      | "" => Some (acc, "")
      | String "|" _ | String ")" _ => Some (acc, s)
      | String "(" s' => match alternatives n s' with Some (r, String ")" t) => continue r t | _ => None end
      | String "[" s' => match class_of n s' with Some (l, t) => continue (RClass l) t | None => None end
      | String "\" (String c s') => if punctuation c then continue (char c) s' else None
      | String "^" s' => sequence n (RCat acc RBegin) s'
      | String "$" s' => sequence n (RCat acc REnd) s'
      | String c s' => if punctuation c then None else continue (char c) s'
      end
  end.
Definition parse_regex (s : string) : option regex :=
  match alternatives (4 * String.length s + 4) s with Some (r, "") => Some r | _ => None end.

(** A pattern is found in a text. *)
Definition found (pattern s : string) : Prop :=
  exists r pre x post, parse_regex pattern = Some r /\ s = (pre ++ x ++ post)%string /\ matches r pre x post.

Example found_1 : parse_regex "^a|[b-d]+(\.e)?$" =
  Some (RAlt (RCat (RCat REmpty RBegin) (char "a")) (RCat (RCat (RCat REmpty (RPlus (RClass [("b", "d")]%char))) (ROpt (RCat (RCat REmpty (char ".")) (char "e")))) REnd)).
Proof. reflexivity. Qed.

(** ** What is written for values of the known types *)

Definition strings (j : json) : Prop := exists l, j = JObj l /\ forall k v, In (k, v) l -> exists s, v = JStr s.
(** The values of an object's metadata; times, owners and managed fields may be anything. *)
Definition metadata (l : list (string * json)) : Prop :=
  (forall k v, In k ["name"; "namespace"] -> mget String.eqb l k = Some v -> exists s, v = JStr s) /\
  (forall k v, In k ["labels"; "annotations"] -> mget String.eqb l k = Some v -> strings v) /\
  (forall v, mget String.eqb l "finalizers" = Some v -> exists f, v = JArr f /\ forall x, In x f -> exists s, x = JStr s).

(** By the path of the package (without vendor directory) and the name; [date]: RFC 3339.  A Time that is zero and a RawExtension
    that is empty are written as null and left out here. *)
Inductive known_json (date : string -> Prop) : string -> string -> json -> Prop :=
| kj_time s : date s -> known_json date "k8s.io/apimachinery/pkg/apis/meta/v1" "Time" (JStr s)
| kj_micro s : date s -> known_json date "k8s.io/apimachinery/pkg/apis/meta/v1" "MicroTime" (JStr s)
| kj_duration s : known_json date "k8s.io/apimachinery/pkg/apis/meta/v1" "Duration" (JStr s)
| kj_fields l : known_json date "k8s.io/apimachinery/pkg/apis/meta/v1" "Fields" (JObj l)
| kj_meta l : metadata l -> known_json date "k8s.io/apimachinery/pkg/apis/meta/v1" "ObjectMeta" (JObj l)
| kj_quantity s : quantity_text s -> known_json date "k8s.io/apimachinery/pkg/api/resource" "Quantity" (JStr s)
| kj_raw l : known_json date "k8s.io/apimachinery/pkg/runtime" "RawExtension" (JObj l)
| kj_unstructured l : known_json date "k8s.io/apimachinery/pkg/apis/meta/v1/unstructured" "Unstructured" (JObj l)
| kj_int z : known_json date "k8s.io/apimachinery/pkg/util/intstr" "IntOrString" (JNum (inject_Z z))
| kj_string s : known_json date "k8s.io/apimachinery/pkg/util/intstr" "IntOrString" (JStr s)
| kj_json1 j : known_json date "k8s.io/apiextensions-apiserver/pkg/apis/apiextensions/v1beta1" "JSON" j
| kj_json j : known_json date "k8s.io/apiextensions-apiserver/pkg/apis/apiextensions/v1" "JSON" j.
