(** * What the options mean, what a run does and where artifacts go. *)
From Coq Require Import List String Ascii Bool Arith Permutation.
From Verif Require Import GoLib RegistryModel RegistrySpec GenallModel.
Import ListNotations.
Open Scope string_scope.
Open Scope list_scope.

(** [x] is the last element of [l] with property [P]. *)
Definition last_such {A : Type} (P : A -> Prop) (l : list A) (x : A) : Prop := exists l1 l2, l = l1 ++ x :: l2 /\ P x /\ forall y, In y l2 -> ~ P y.
Definition none_such {A : Type} (P : A -> Prop) (l : list A) : Prop := forall y, In y l -> ~ P y.

Section Spec.
  Variables G D : Type.
  Variable parse : D -> string -> option (optval G).
  Variable reg : registry D.

  (** One option: its text (with a '+' in front unless it has one) names a definition and its arguments parse to a value. *)
  Definition means (raw : string) (nv : string * optval G) : Prop :=
    exists text d, (text = raw /\ has_prefix "+" raw = true \/ text = "+" ++ raw /\ has_prefix "+" raw = false /\ raw <> "")%string /\
                   lookup D reg text DescribesPackage = Some d /\ parse (d_payload d) text = Some (snd nv) /\ d_name d = fst nv.

  (** Names of output rules: "output:<rule>" is for all generators, "output:<generator>:<rule>" for one. *)
  Definition default_name (n : string) : Prop := exists r, n = ("output:" ++ r)%string /\ has_char ":" r = false.
  Definition gen_name (n g : string) : Prop := exists r, n = ("output:" ++ g ++ ":" ++ r)%string /\ has_char ":" g = false /\ g <> "".
  Definition rule_names_ok (nvs : list (string * optval G)) : Prop := forall n r, In (n, VOut r) nvs -> default_name n \/ exists g, gen_name n g.

  Definition gens_of (nvs : list (string * optval G)) : list (string * G) :=
    flat_map (fun nv => match snd nv with VGen g => [(fst nv, g)] | _ => [] end) nvs.
  Definition rules_of (nvs : list (string * optval G)) : list (string * rule) :=
    flat_map (fun nv => match snd nv with VOut r => [(fst nv, r)] | _ => [] end) nvs.
  Definition paths_of (nvs : list (string * optval G)) : list string :=
    flat_map (fun nv => match snd nv with VPaths ps => ps | _ => [] end) nvs.

  (** Options that are accepted: all are known, no generator is given twice, every rule is for a generator that is given. *)
  Definition acceptable (nvs : list (string * optval G)) : Prop :=
    (forall n, ~ In (n, VOther) nvs) /\ NoDup (map fst (gens_of nvs)) /\
    (forall n r g, In (n, VOut r) nvs -> gen_name n g -> In g (map fst (gens_of nvs))).

  (** The rule for the generator named [g], if any was given, and the default. *)
  Definition rule_given (nvs : list (string * optval G)) (g : string) (r : rule) : Prop := exists n, last_such (fun nr => gen_name (fst nr) g) (rules_of nvs) (n, r).
  Definition no_rule_given (nvs : list (string * optval G)) (g : string) : Prop := none_such (fun nr => gen_name (fst nr) g) (rules_of nvs).
  Definition default_given (nvs : list (string * optval G)) (r : rule) : Prop := exists n, last_such (fun nr => default_name (fst nr)) (rules_of nvs) (n, r).
  Definition no_default_given (nvs : list (string * optval G)) : Prop := none_such (fun nr => default_name (fst nr)) (rules_of nvs).

  (** A run calls the generators one after the other, each with its own rule and with a type checker iff it asks for one,
      whatever the others returned. *)
  Section Run.
    Variable W : Type.
    Variable act : G -> option rule -> bool -> W -> W * option string.
    Variable needs_check : G -> bool.
    Inductive called (rule_of : nat -> option rule) : list (nat * G) -> W -> list (option string) -> W -> Prop :=
    | called_nil w : called rule_of [] w [] w
    | called_cons i g rest w w1 e es w' : act g (rule_of i) (needs_check g) w = (w1, e) -> called rule_of rest w1 es w' -> called rule_of ((i, g) :: rest) w (e :: es) w'.
  End Run.
End Spec.

(** Import graph: what packages.Visit promises to call its function on. *)
Inductive reaches {P : Type} (imports : P -> list P) : P -> P -> Prop :=
| reaches_refl p : reaches imports p p
| reaches_step p q r : In q (imports p) -> reaches imports q r -> reaches imports p r.
