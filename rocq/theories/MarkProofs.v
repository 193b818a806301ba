(** * Facts about schema markers *)
From Coq Require Import List String ZArith QArith Bool Permutation Sorting.Sorted Lia.
From Verif Require Import GoLib GoLibFacts SchemaModel ValidSpec MarkModel MarkSpec.
Import ListNotations.
Open Scope string_scope.
Open Scope list_scope.

(** ** Acceptance and effect *)
Definition ok (m : smarker) (s : schema) : bool := negb (snd (apply m s)).
Definition upd (m : smarker) (s : schema) : schema := fst (apply m s).

Ltac ifs := repeat match goal with
  | |- context [if ?b then _ else _] => destruct b eqn:?
  | |- context [match ?v with JNull => _ | JBool _ => _ | JNum _ => _ | JStr _ => _ | JArr _ => _ | JObj _ => _ end] => destruct v eqn:?
  end.

Lemma apply_rejected m s s' : apply m s = (s', true) -> s' = s.
Proof.
  destruct m; cbn [apply]; cbv zeta; ifs; intros [= <-]; reflexivity.
Qed.

Lemma integral_whole q : is_integral q = true <-> whole q.
Proof.
  unfold is_integral, whole, Qeq, inject_Z. cbn [Qnum Qden]. rewrite Z.eqb_eq. split.
  - intros H. exists (Qnum q / Zpos (Qden q))%Z. apply Z.div_exact in H; [lia|discriminate].
  - intros [z H]. rewrite Z.mul_1_r in H. rewrite H. apply Z.mod_mul. discriminate.
Qed.

Lemma is_type_iff s t : is_type s t = true <-> k_type (s_kw s) = t.
Proof. apply String.eqb_eq. Qed.
Lemma typed1 s t : typed_as [t] s <-> k_type (s_kw s) = t.
Proof. unfold typed_as. cbn. intuition congruence. Qed.
Lemma typed2 s t u : typed_as [t; u] s <-> k_type (s_kw s) = t \/ k_type (s_kw s) = u.
Proof. unfold typed_as. cbn. intuition congruence. Qed.

Lemma ok_num q s : negb (negb (has_numeric_type s)) && negb (is_type s "integer" && negb (is_integral q)) = true
  <-> typed_as ["number"] s \/ (typed_as ["integer"] s /\ whole q).
Proof.
  rewrite !typed1, <- integral_whole. unfold has_numeric_type, is_type.
  destruct (String.eqb_spec (k_type (s_kw s)) "integer") as [->|N]; destruct (is_integral q); cbn; try (intuition congruence).
  all: rewrite ?negb_involutive, ?andb_true_r, String.eqb_eq; intuition congruence.
Qed.

Ltac beqs := repeat match goal with
  | |- context [String.eqb ?a ?b] => destruct (String.eqb_spec a b)
  end.

Lemma ok_usable m s : ok m s = true <-> usable m s.
Proof.
  unfold ok.
  destruct m; cbn [apply usable]; cbv zeta; try (cbn [snd negb]; tauto).
  all: try (rewrite <- ok_num; destruct (negb (has_numeric_type s)); [cbn; tauto|];
            destruct (is_type s "integer" && negb (is_integral q)); cbn; tauto).
  all: rewrite ?typed1, ?typed2; unfold has_numeric_type, has_textual_type, is_type.
  all: try (beqs; cbn; intuition congruence; fail).
  all: try (destruct (k_x_int_or_string (s_kw s)); beqs; cbn; intuition congruence; fail).
  - unfold mem_str; cbn [existsb In]; beqs; cbn; intuition congruence.
  - destruct v; cbn; tauto.
  - destruct v; cbn; split; intros H; try discriminate; try destruct H as [H|[? H]]; try discriminate; eauto.
  - destruct (k_x_list_type (s_kw s)) as [t|]; beqs; cbn; subst; intuition congruence.
Qed.

Lemma apply_ok_upd m s : apply m s = (upd m s, negb (ok m s)).
Proof. unfold upd, ok. rewrite negb_involutive. apply surjective_pairing. Qed.
Lemma upd_rejected m s : ok m s = false -> upd m s = s.
Proof. intros H. apply (apply_rejected m). rewrite apply_ok_upd, H. reflexivity. Qed.

(** The effect of an accepted marker *)
Definition act (m : smarker) (s : schema) : schema :=
  match m with
  | MMaximum q => set_maximum s (Some q) | MMinimum q => set_minimum s (Some q) | MExclMax b => set_excl_max s b | MExclMin b => set_excl_min s b | MMultipleOf q => set_multiple_of s (Some q)
  | MMaxLength z => set_max_length s (Some z) | MMinLength z => set_min_length s (Some z) | MPattern p => set_pattern s p
  | MMaxItems z => set_max_items s (Some z) | MMinItems z => set_min_items s (Some z) | MUniqueItems b => set_unique_items s b
  | MMinProps z => set_min_props s (Some z) | MMaxProps z => set_max_props s (Some z)
  | MEnum l => set_enum s l | MFormat f => set_format s f | MType t => set_type s t | MNullable => set_nullable s true
  | MDefault v => set_default s (Some (if is_type s "array" && match v with JObj [] => true | _ => false end then JArr [] else v))
  | MTitle v => match v with JStr t => set_title s t | _ => s end
  | MKubeDefault v => match v with JNull => s | _ => set_default s (Some v) end
  | MExample v => set_example s (Some v) | MPreserve => set_x_preserve s (Some true) | MEmbedded => set_x_embedded s true | MIntOrString => set_x_int_or_string s true
  | MXValidation r => set_x_validations s (k_x_validations (s_kw s) ++ [r]) | MListType t => set_x_list_type s (Some t)
  | MListMapKey key => set_x_list_map_keys s (k_x_list_map_keys (s_kw s) ++ [key]) | MMapType t | MStructType t => set_x_map_type s (Some t)
  end.
Lemma apply_act m s : apply m s = if ok m s then (act m s, false) else (s, true).
Proof.
  unfold ok. destruct m; cbn [apply act]; cbv zeta; try reflexivity.
  all: try (repeat match goal with |- context [if ?b then (?x, true) else _] => destruct b end; reflexivity).
  all: destruct v; reflexivity.
Qed.

Ltac crush_schema s := destruct s as [[] ? ? ? ? ? ? ? ? ? ? ?].

Lemma act_unchanged m s : unchanged_but [keyword_of m] s (act m s).
Proof.
  crush_schema s. destruct m; (split; [|repeat split]); cbn [act]; ifs;
    try (intros k N; destruct k; try reflexivity; exfalso; apply N; left; reflexivity); reflexivity.
Qed.
Lemma act_carries m s : ok m s = true -> carries m (s_kw (act m s)).
Proof.
  intros H. crush_schema s. destruct m; cbn; try reflexivity; try (apply in_or_app; right; left; reflexivity).
  - destruct v as [| | | | |[|p l]]; cbn; try rewrite andb_false_r; try (left; reflexivity).
    rewrite andb_true_r. unfold is_type; cbn. destruct (String.eqb_spec k_type "array") as [E|N]; [right; cbn; auto|left; reflexivity].
  - destruct v; cbn; auto.
  - destruct v; cbn in H |- *; try discriminate; eauto.
Qed.
