(** * What a schema accepts: validation of JSON values, from the OpenAPI/JSON-schema reading of
    apiextensions.k8s.io/v1 JSONSchemaProps. Independent of the generator. *)

From Coq Require Import List String ZArith QArith Bool.
From Verif Require Import GoLib SchemaModel.
Import ListNotations.
Open Scope string_scope.
Open Scope list_scope.

(** The parts of validation that do not matter here are arbitrary functions: JSON equality (enum, uniqueItems), string
    length in characters, regular expressions, formats, CEL rules, unresolved references, embedded resources, divisibility. *)
Record oracles := mkOracles {
  o_jeq : json -> json -> bool; o_strlen : string -> Z; o_pattern : string -> string -> bool; o_format : string -> json -> bool;
  o_cel : vrule -> json -> bool; o_ref : string -> json -> bool; o_embedded : json -> bool; o_multiple : Q -> Q -> bool }.

Section Valid.
  Variable O : oracles.

  Definition is_integer (q : Q) : bool := Pos.eqb (Qden (Qred q)) 1.
  (** null is accepted by a typed schema only if it is nullable; a schema without a type accepts any value. *)
  Definition type_ok (t : string) (nullable : bool) (v : json) : bool :=
    String.eqb t "" ||
    match v with
    | JNull => nullable
    | JBool _ => String.eqb t "boolean"
    | JNum q => String.eqb t "number" || (String.eqb t "integer" && is_integer q)
    | JStr _ => String.eqb t "string"
    | JArr _ => String.eqb t "array"
    | JObj _ => String.eqb t "object"
    end.

  Definition opt_ok {A} (o : option A) (f : A -> bool) : bool := match o with Some x => f x | None => true end.
  Definition on_num (v : json) (f : Q -> bool) : bool := match v with JNum q => f q | _ => true end.
  Definition on_str (v : json) (f : string -> bool) : bool := match v with JStr s => f s | _ => true end.
  Definition on_arr (v : json) (f : list json -> bool) : bool := match v with JArr l => f l | _ => true end.
  Definition on_obj (v : json) (f : list (string * json) -> bool) : bool := match v with JObj l => f l | _ => true end.
  Definition zlen {A} (l : list A) : Z := Z.of_nat (List.length l).
  Fixpoint distinct (l : list json) : bool :=
    match l with [] => true | x :: l' => negb (existsb (o_jeq O x) l') && distinct l' end.
  Definition qlt_bool (a b : Q) : bool := negb (Qle_bool b a).

  Definition has_key (l : list (string * json)) (k : string) : bool :=
    match mget String.eqb l k with Some _ => true | None => false end.

  (** One check per keyword. *)
  Definition kw_checks : list (kw -> json -> bool) :=
    [ (fun k v => type_ok (k_type k) (k_nullable k) v);
      (fun k v => opt_ok (k_ref k) (fun r => String.eqb r "" || o_ref O r v));
      (fun k v => String.eqb (k_format k) "" || o_format O (k_format k) v);
      (fun k v => opt_ok (k_maximum k) (fun m => on_num v (fun q => if k_excl_max k then qlt_bool q m else Qle_bool q m)));
      (fun k v => opt_ok (k_minimum k) (fun m => on_num v (fun q => if k_excl_min k then qlt_bool m q else Qle_bool m q)));
      (fun k v => opt_ok (k_max_length k) (fun n => on_str v (fun s => Z.leb (o_strlen O s) n)));
      (fun k v => opt_ok (k_min_length k) (fun n => on_str v (fun s => Z.leb n (o_strlen O s))));
      (fun k v => String.eqb (k_pattern k) "" || on_str v (o_pattern O (k_pattern k)));
      (fun k v => opt_ok (k_max_items k) (fun n => on_arr v (fun l => Z.leb (zlen l) n)));
      (fun k v => opt_ok (k_min_items k) (fun n => on_arr v (fun l => Z.leb n (zlen l))));
      (fun k v => negb (k_unique_items k) || on_arr v distinct);
      (fun k v => opt_ok (k_multiple_of k) (fun m => on_num v (fun q => o_multiple O q m)));
      (fun k v => match k_enum k with [] => true | l => existsb (o_jeq O v) l end);
      (fun k v => opt_ok (k_max_props k) (fun n => on_obj v (fun l => Z.leb (zlen l) n)));
      (fun k v => opt_ok (k_min_props k) (fun n => on_obj v (fun l => Z.leb n (zlen l))));
      (fun k v => on_obj v (fun l => forallb (has_key l) (k_required k)));
      (fun k v => negb (k_x_embedded k) || o_embedded O v);
      (fun k v => negb (k_x_int_or_string k) || match v with JStr _ => true | JNum q => is_integer q | JNull => true | _ => false end);
      (fun k v => forallb (fun r => o_cel O r v) (k_x_validations k)) ].
  Definition kw_ok (k : kw) (v : json) : bool := forallb (fun c => c k v) kw_checks.

  (** The value satisfies the schema. Titles, descriptions, defaults, examples, ids, definitions, list and map types and
      x-preserve-unknown-fields do not restrict values. *)
  Fixpoint valid (s : schema) (v : json) {struct s} : bool :=
    match s with
    | Sch k items allOf oneOf anyOf not_ props addl patprops deps addlItems _ =>
      kw_ok k v
      && on_arr v (fun arr =>
           match items with
           | None => true
           | Some (o, []) => match o with Some x => forallb (valid x) arr | None => true end
           | Some (_, tuple) =>
               (fix go (l : list schema) (arr : list json) {struct l} : bool :=
                  match l, arr with
                  | x :: l', a :: arr' => valid x a && go l' arr'
                  | [], rest => match addlItems with
                                | Some (_, Some x) => forallb (valid x) rest
                                | Some (b, None) => b || match rest with [] => true | _ => false end
                                | None => true
                                end
                  | _, [] => true
                  end) tuple arr
           end)
      && forallb (fun c => valid c v) allOf
      && match oneOf with [] => true | _ => Nat.eqb (List.length (filter (fun c => valid c v) oneOf)) 1 end
      && match anyOf with [] => true | _ => existsb (fun c => valid c v) anyOf end
      && match not_ with Some c => negb (valid c v) | None => true end
      && on_obj v (fun obj =>
           forallb (fun p => match mget String.eqb obj (fst p) with Some x => valid (snd p) x | None => true end) props
           && forallb (fun p => forallb (fun kv => negb (o_pattern O (fst p) (fst kv)) || valid (snd p) (snd kv)) obj) patprops
           && match addl with
              | None => true
              | Some (b, o) =>
                  forallb (fun kv => mem_str (fst kv) (map fst props) || existsb (fun p => o_pattern O (fst p) (fst kv)) patprops
                                     || match o with Some x => valid x (snd kv) | None => b end) obj
              end
           && forallb (fun p => negb (has_key obj (fst p))
                        || (match fst (snd p) with Some x => valid x v | None => true end && forallb (has_key obj) (snd (snd p)))) deps)
    end.
End Valid.

(** A value without null anywhere. *)
Fixpoint null_free (v : json) : bool :=
  match v with
  | JNull => false
  | JArr l => forallb null_free l
  | JObj l => forallb (fun p => null_free (snd p)) l
  | _ => true
  end.
