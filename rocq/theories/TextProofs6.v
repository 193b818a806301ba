(** * The types that are named in a body (for C67) *)
From Coq Require Import List String Ascii Bool Arith Lia.
From Verif Require Import GoLib DeepModel TextSpec.
Import ListNotations.
Open Scope string_scope.
Open Scope nat_scope.
Open Scope list_scope.

Lemma syntax_cases t : syntax t = [] \/ In EName (syntax t).
Proof.
  induction t as [b s|n|t IH|t IH|k IHk t IH|fs|s]; cbn [syntax]; auto; try (right; now left).
  destruct IHk as [Ek|Ik]; [rewrite Ek; exact IH|]. right. apply in_or_app. now left.
Qed.
Lemma syntax_nameable t : basics_fine t -> syntax t = [] -> nameable t.
Proof.
  induction t as [b s|n|t IH|t IH|k IHk t IH|fs|s]; cbn [syntax basics_fine nameable]; auto; try discriminate.
  intros (Bk & B) E. apply app_eq_nil in E as (Ek & E). auto.
Qed.

Section Named.
  Variable decls : string -> decl.
  Hypothesis fine : forall n, basics_fine (d_under (decls n)).
  Definition good (r : res) : Prop := match r with Some (ss, es) => In EName es \/ Forall nameable (flat_map stmt_types ss) | None => True end.
  Lemma under_fine t : basics_fine t -> basics_fine (under decls t).
  Proof. destruct t; cbn; auto. Qed.
  Lemma gd_seq a b : good a -> good b -> good (seq2 a b).
  Proof.
    destruct a as [[ss es]|]; [|easy]. destruct b as [[ss' es']|]; [|easy]. cbn. rewrite flat_map_app. intros [H|H] [H'|H']; try (left; apply in_or_app; tauto). right. now apply Forall_app.
  Qed.
  Lemma gd_none ss es : flat_map stmt_types ss = [] -> good (Some (ss, es)).
  Proof. intros E. right. rewrite E. constructor. Qed.
  Lemma gd_ty t ss : basics_fine t -> incl (flat_map stmt_types ss) [t] -> good (wr_ty t ss).
  Proof.
    intros B I. cbn. destruct (syntax_cases t) as [E|E]; [right|now left]. apply Forall_forall. intros x Hx. destruct (I x Hx) as [<-|[]]. now apply syntax_nameable.
  Qed.
  Lemma gd_wrap f r : (forall ss, incl (flat_map stmt_types (f ss)) (flat_map stmt_types ss)) -> good r -> good (wrap f r).
  Proof.
    intros I. destruct r as [[ss es]|]; [|easy]. cbn. intros [H|H]; [now left|right]. rewrite Forall_forall in *. intros x Hx. apply H, (I ss x Hx).
  Qed.
  Ltac same := intros ss x Hx; cbn in Hx; rewrite ?app_nil_r in Hx; exact Hx.
  Section Step.
    Variable n : nat.
    Variable block : ty -> res.
    Hypothesis blocks : forall t, basics_fine t -> good (block t).
    Ltac none := apply gd_none; reflexivity.
    Ltac one := intros x Hx; cbn in Hx; rewrite ?app_nil_r in Hx; exact Hx.
    Lemma gd_map_body e : basics_fine e -> good (gen_map_body decls n block e).
    Proof.
      intros B. unfold gen_map_body, wr, fail. destruct (has_any decls e).
      - destruct (result_ptr decls n e (has_copy decls e)) as [p|]; [|exact I]. destruct (Bool.eqb _ (is_ptr e)); [none|]. destruct (is_ptr e); none.
      - destruct (shallow decls n e) as [[|]|]; [none| |exact I]. destruct (by_ref (under decls e)).
        + apply gd_seq; [apply gd_ty; [now apply under_fine|one]|]. apply gd_wrap; [same|now apply blocks].
        + destruct (under decls e); none.
    Qed.
    Lemma gd_map t k e : basics_fine t -> basics_fine e -> good (gen_map decls n block t k e).
    Proof.
      intros Bt Be. unfold gen_map, fail. destruct (shallow decls n k) as [[|]|]; [|none|exact I]. apply gd_seq; [apply gd_ty; [exact Bt|one]|]. apply gd_wrap; [same|now apply gd_map_body].
    Qed.
    Lemma gd_slice t e : basics_fine t -> basics_fine e -> good (gen_slice decls n block t e).
    Proof.
      intros Bt Be. unfold gen_slice, wr, fail. apply gd_seq; [apply gd_ty; [exact Bt|one]|]. destruct (has_any decls e); [none|]. destruct (shallow decls n (under decls e)) as [[|]|]; [none| |exact I].
      apply gd_wrap; [same|]. destruct (by_ref (under decls e) || false); [apply gd_wrap; [same|now apply blocks]|]. destruct (under decls e); none.
    Qed.
    Lemma gd_pointer e : basics_fine e -> good (gen_pointer decls n block e).
    Proof.
      intros Be. assert (Bu := under_fine e Be). unfold gen_pointer, wr, fail. destruct (has_any decls e).
      - destruct (result_ptr decls n e (has_copy decls e)) as [p|]; [|exact I]. destruct (match has_copy decls e with Some q => q | None => p end); none.
      - destruct (shallow decls n (under decls e)) as [[|]|]; [apply gd_ty; [exact Be|one]| |exact I]. destruct (by_ref (under decls e)).
        + apply gd_seq; [apply gd_ty; [exact Bu|one]|]. apply gd_wrap; [same|now apply blocks].
        + destruct (under decls e); try none. apply gd_ty; [exact Be|one].
    Qed.
    Definition good_f (r : option (list stmt * list derr * bool)) : Prop := match r with Some (ss, es, _) => good (Some (ss, es)) | None => True end.
    Lemma gd_field i f : basics_fine f -> good_f (gen_field decls n block i f).
    Proof.
      intros B. assert (Go : forall r, good r -> good_f (match r with Some (ss, es) => Some (ss, es, false) | None => None end)) by (intros [[ss es]|]; auto).
      assert (D : good (wrap (fun b => [SIfSome (in_f i) (SInOut (EAddr (in_f i)) (EAddr (out_f i)) :: b)]) (block f))) by (apply gd_wrap; [same|now apply blocks]).
      unfold gen_field, wr. destruct (has_any decls f).
      - destruct (result_ptr decls n f (has_copy decls f)) as [p|]; [|exact I]. destruct (is_ptr f); [now apply Go|]. destruct (Bool.eqb p false); none.
      - destruct (by_ref (under decls f)); [now apply Go|]. destruct (under decls f) as [[|] s|m|e|e|a e|fs|s]; try none. destruct (shallow decls n f) as [[|]|]; [none|none|exact I].
    Qed.
    Lemma gd_fields i fs : fold_right (fun f P => basics_fine f /\ P) True fs -> good (gen_fields decls n block i fs).
    Proof.
      revert i. induction fs as [|f fs IH]; intros i B; [none|]. destruct B as (Bf & B). cbn [gen_fields]. assert (G := gd_field i f Bf). destruct (gen_field decls n block i f) as [[[ss es] [|]]|]; [exact G| |exact I]. apply gd_seq; [exact G|now apply IH].
    Qed.
    Lemma gd_step t : basics_fine t -> good (gen_step decls n block t).
    Proof.
      intros B. assert (Bu := under_fine t B). unfold gen_step, wr, fail. destruct (negb (is_ptr (under decls t)) && has_any decls t); [none|]. destruct (under decls t) as [[|] s|m|e|e|a e|fs|s]; try none.
      - destruct (has_copy decls t); none.
      - apply gd_pointer. exact Bu.
      - apply gd_slice; [exact B|exact Bu].
      - apply gd_map; [exact B|exact (proj2 Bu)].
      - unfold gen_struct, wr. apply gd_seq; [none|]. apply gd_fields. exact Bu.
    Qed.
  End Step.
  Lemma gd_block n t : basics_fine t -> good (gen_block decls n t).
  Proof. revert t. induction n as [|n IH]; intros t B; [exact I|]. cbn [gen_block]. now apply gd_step. Qed.
End Named.
