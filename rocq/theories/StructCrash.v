(** * Proofs about crashes of the schema generator. *)
From Coq Require Import List String Ascii Bool.
From Verif Require Import GoLib GoLibFacts SchemaModel RefModel ErrorsModel MarkModel MarkSpec StructModel FlattenModel NeedModel StructSpec StructProofs.
Import ListNotations.
Open Scope string_scope.
Open Scope list_scope.

Lemma bind_panic {A B} (x : res A) (f : A -> res B) : bind x f = Panic <-> x = Panic \/ exists a r e, x = Done a r e /\ f a = Panic.
Proof.
  destruct x as [a r e|]; cbn; [|split; auto]. destruct (f a) as [b r' e'|] eqn:E; split; auto; try discriminate.
  - intros [H|(a' & r0 & e0 & [= <- <- <-] & H)]; congruence.
  - intros _. right. exists a, r, e. auto.
Qed.
Lemma bind_ret {A B} (x : res A) (f : A -> B) : bind x (fun a => ret (f a)) = Panic <-> x = Panic.
Proof. rewrite bind_panic. split; [intros [H|(a & r & e & _ & H)]; [exact H|discriminate]|auto]. Qed.

Section Crash.
  Variable order : marker_values -> marker_values.
  Variable sorted : list (string * smarker) -> list (string * smarker).
  Variable imports : string -> bool.
  Variable allow_dangerous ig : bool.
  Variable pm : marker_values.
  Notation TTS := (type_to_schema order sorted imports allow_dangerous).

  Lemma with_markers_total ms s : with_markers order sorted ms s <> Panic.
  Proof. unfold with_markers. destruct (apply_markers _ _ _ _). discriminate. Qed.
  Lemma post_panic x d ms : bind x (fun s => with_markers order sorted ms (set_desc s d)) = Panic <-> x = Panic.
  Proof. rewrite bind_panic. split; [intros [H|(a & r & e & _ & H)]; [exact H|destruct (with_markers_total _ _ H)]|auto]. Qed.
  Lemma request_panic p n : request imports p n = Panic <-> ~ (p = "" \/ imports p = true).
  Proof. unfold request. destruct (String.eqb p "") eqn:E; cbn. - apply String.eqb_eq in E. split; [discriminate|tauto]. - apply String.eqb_neq in E. destruct (imports p); split; try discriminate; tauto || congruence || auto. intros _ [H|H]; [auto|discriminate].
  Qed.
  Lemma basic_total k b n : bind (match builtin_to_type allow_dangerous k with Some r => ret r | None => fails ("", "") GBuiltin end) (fun '(typ, fmt) =>
            if negb (String.eqb b n) then bind (request imports "" n) (fun _ => ret (set_ref (typed typ fmt) (Some (type_ref_link "" n)))) else ret (typed typ fmt)) <> Panic.
  Proof. destruct (builtin_to_type _ _) as [[t f]|]; cbn; destruct (negb _); discriminate. Qed.
  Lemma local_panic n t : local_named imports allow_dangerous n t = Panic <-> crashes imports (EIdent n t).
  Proof.
    assert (Ow : forall o m, (match o with OHere => bind (request imports "" m) (fun _ => ret (ref_to "" m)) | OPkg p => let path := non_vendor_path p in bind (request imports path m) (fun _ => ret (ref_to path m)) | OUniverse => Panic end) = Panic <-> ~ importable imports o).
    { intros [| |p] m; cbn [importable].
      - tauto.
      - cbn. split; [discriminate|tauto].
      - cbn zeta. rewrite bind_ret, request_panic. tauto. }
    assert (C : forall t', match t with TAlias _ _ rhs => rhs | _ => t end = t' -> (crashes imports (EIdent n t) <-> t' = TOther \/ (exists o m u, t' = TNamed o m u /\ ~ importable imports o) \/ (exists o' m' o m u, t = TAlias o' m' (TAlias o m u) /\ ~ importable imports o))).
    { intros t' <-. split.
      - intros H. inversion H as [? ? E|? ? o m u E N|? o' m' o m u N| | | | |]; subst; [left; exact E|right; left; exists o, m, u; auto|right; right; exists o', m', o, m, u; auto].
      - intros [E|[(o & m & u & E & N)|(o' & m' & o & m & u & -> & N)]]; [constructor; exact E|eapply crash_owner; eassumption|constructor; exact N]. }
    rewrite (C _ eq_refl). clear C. unfold local_named. destruct t as [|k b|o m u|o m u|].
    - split; [discriminate|]. intros [E|[(o & m & u & E & _)|(? & ? & ? & ? & ? & E & _)]]; discriminate.
    - split; [intros H; destruct (basic_total _ _ _ H)|]. intros [E|[(o & m & u & E & _)|(? & ? & ? & ? & ? & E & _)]]; discriminate.
    - cbn [obj_of]. rewrite Ow. split.
      + intros N. right. left. exists o, m, u. auto.
      + intros [E|[(o' & m' & u' & [= <- <- <-] & N)|(? & ? & ? & ? & ? & E & _)]]; [discriminate|exact N|discriminate].
    - destruct u as [|k b|o' m' u'|o' m' u'|].
      + split; [discriminate|]. intros [E|[(? & ? & ? & E & _)|(? & ? & ? & ? & ? & E & _)]]; discriminate.
      + split; [intros H; destruct (basic_total _ _ _ H)|]. intros [E|[(? & ? & ? & E & _)|(? & ? & ? & ? & ? & E & _)]]; discriminate.
      + cbn [obj_of]. rewrite Ow. split.
        * intros N. right. left. exists o', m', u'. auto.
        * intros [E|[(? & ? & ? & [= <- <- <-] & N)|(? & ? & ? & ? & ? & E & _)]]; [discriminate|exact N|discriminate].
      + cbn [obj_of]. rewrite Ow. split.
        * intros N. right. right. exists o, m, o', m', u'. auto.
        * intros [E|[(? & ? & ? & E & N)|(? & ? & ? & ? & ? & [= <- <- <- <- <-] & N)]]; [discriminate|discriminate|exact N].
      + split; auto.
    - split; auto.
  Qed.
  Lemma named_panic t : named imports t = Panic <-> crashes imports (ESel t).
  Proof.
    assert (C : crashes imports (ESel t) <-> match t with TInvalid => False | TNamed (OPkg p) _ _ | TAlias (OPkg p) _ _ => ~ importable imports (OPkg p) | _ => True end).
    { split; [intros H; inversion H; assumption|constructor; assumption]. }
    rewrite C. clear C. unfold named. destruct t as [|k b|[| |p] m u|[| |p] m u|]; cbn [obj_of]; try tauto; try (split; [discriminate|tauto]); cbn zeta; rewrite bind_ret, request_panic; cbn; tauto.
  Qed.
  Lemma type_panic d ms e : TTS Panic Panic d ms e = Panic <-> crashes imports e.
  Proof.
    assert (G : forall e, (forall d ms, TTS Panic Panic d ms e = Panic <-> crashes imports e) /\
       (forall sz, (if is_byte_type (type_of e) && negb sz then ret (typed "string" "byte")
                     else bind (TTS Panic Panic "" [] e) (fun items => ret (set_items (set_type schema0 "array") (Some (Some items, []))))) = Panic <-> crashes imports (EArray sz e))).
    { clear d ms e. fix IH 1. intros e.
      assert (A : forall d ms, TTS Panic Panic d ms e = Panic <-> crashes imports e).
      { intros d ms. destruct e as [n t|t|sz e|k v|e| |]; cbn [type_to_schema].
        - rewrite post_panic. apply local_panic.
        - rewrite post_panic. apply named_panic.
        - rewrite post_panic. apply (proj2 (IH e)).
        - rewrite post_panic.
          assert (C : crashes imports (EMap k v) <-> string_key k = true /\ v <> EStruct /\ crashes imports v) by (split; [intros H; inversion H; auto|intros (? & ? & ?); constructor; assumption]).
          rewrite C. clear C. destruct (string_key k); cbn [negb]; [|split; [discriminate|intros [? _]; discriminate]].
          pose proof (proj1 (IH v) "" []) as V. destruct v as [n t|t|sz e|k' v'|e| |].
          + rewrite bind_ret, local_panic. intuition discriminate.
          + rewrite bind_ret, named_panic. intuition discriminate.
          + rewrite bind_ret. rewrite (proj2 (IH e)). intuition discriminate.
          + rewrite bind_ret, V. intuition discriminate.
          + rewrite bind_ret, V. intuition discriminate.
          + split; [discriminate|tauto].
          + split; [discriminate|]. intros (_ & _ & H). inversion H.
        - rewrite post_panic. rewrite (proj1 (IH e)). split; [constructor; assumption|intros H; inversion H; assumption].
        - rewrite post_panic. split; [constructor|reflexivity].
        - split; [discriminate|intros H; inversion H]. }
      split; [exact A|]. intros sz.
      assert (C : crashes imports (EArray sz e) <-> ~ (is_byte_type (type_of e) = true /\ sz = false) /\ crashes imports e) by (split; [intros H; inversion H; auto|intros (? & ?); constructor; assumption]).
      rewrite C. clear C. destruct (is_byte_type (type_of e)), sz; cbn [andb negb]; rewrite ?bind_ret, ?A; intuition discriminate. }
    apply (proj1 (G e)).
  Qed.

  Notation STEP := (field_step order sorted imports allow_dangerous ig pm).
  Notation FIELDS := (fields_to_schema order sorted imports allow_dangerous ig pm).
  Definition bad (f : finfo) : Prop := (exists n i q, plays ig pm f (Member n i q)) /\ ~ marked (fi_markers f) "kubebuilder:validation:Schemaless" /\ crashes imports (fi_type f).
  Lemma step_panic f s : STEP f s = Panic <-> bad f.
  Proof.
    unfold bad. assert (R : (exists n i q, plays ig pm f (Member n i q)) <-> exists n i q, role_of ig pm f = Member n i q).
    { split; intros (n & i & q & H); exists n, i, q; [symmetry; apply plays_role, H|apply plays_role; congruence]. }
    rewrite R. clear R. unfold field_step, role_of. fold (is_hidden ig f). destruct (is_hidden ig f); [split; [discriminate|intros ((? & ? & ? & [=]) & _)]|].
    destruct (fi_json f) as [tag|]; [|split; [discriminate|intros ((? & ? & ? & [=]) & _)]].
    destruct (_ && _); [split; [discriminate|intros ((? & ? & ? & [=]) & _)]|]. cbn zeta.
    rewrite bind_panic. split.
    - intros [H|(a & r & e & _ & H)].
      + split; [eauto|]. destruct (has_marker (fi_markers f) "kubebuilder:validation:Schemaless") eqn:M; [discriminate|]. apply marked_false in M. split; [exact M|]. apply type_panic in H. exact H.
      + exfalso. apply bind_panic in H as [H|(? & ? & ? & _ & H)]; [destruct (with_markers_total _ _ H)|discriminate].
    - intros (_ & M & C). left. apply marked_false in M. rewrite M. apply type_panic. exact C.
  Qed.
  Lemma fields_panic fs : forall s, FIELDS fs s = Panic <-> exists f, In f fs /\ bad f.
  Proof.
    induction fs as [|f fs IH]; intros s; cbn [fields_to_schema]; [split; [discriminate|intros (? & [] & _)]|]. rewrite bind_panic, step_panic. split.
    - intros [H|(a & r & e & _ & H)]; [exists f; cbn; auto|]. apply IH in H as (g & I & B). exists g. cbn. auto.
    - intros (g & [<-|I] & B); [auto|]. destruct (STEP f s) as [a r e|] eqn:E; [|left; apply step_panic in E; exact E]. right. exists a, r, e. split; [reflexivity|]. apply IH. exists g. auto.
  Qed.
  Lemma below_panic e o er : forall d ms, TTS (fails o er) (fails o er) d ms e = Panic <-> crashes imports e /\ ~ (exists k, e = Nat.iter k EStar EStruct).
  Proof.
    induction e as [n t|t|sz e IH|k v IH|e IH| |]; intros d ms.
    1-4: match goal with |- TTS _ _ ?d ?ms ?e = Panic <-> _ => change (TTS (fails o er) (fails o er) d ms e) with (TTS Panic Panic d ms e); rewrite type_panic end;
      split; [intros H; split; [exact H|intros ([|k'] & E); discriminate E]|tauto].
    - cbn [type_to_schema]. rewrite post_panic, IH. split.
      + intros [C N]. split; [constructor; exact C|]. intros ([|k] & E); [discriminate|]. injection E as E. apply N. exists k. exact E.
      + intros [C N]. inversion C; subst. split; [assumption|]. intros (k & E). apply N. exists (S k). change (Nat.iter (S k) EStar EStruct) with (EStar (Nat.iter k EStar EStruct)). congruence.
    - cbn [type_to_schema]. rewrite post_panic. split; [discriminate|]. intros [_ N]. exfalso. apply N. exists 0. reflexivity.
    - split; [discriminate|]. intros [C _]. inversion C.
  Qed.
  Lemma spec_panic ti : spec_to_schema order sorted imports allow_dangerous ig pm ti = Panic <->
    (ti_raw ti = EStruct /\ exists f, In f (ti_fields ti) /\ bad f) \/ (crashes imports (ti_raw ti) /\ ~ exists k, ti_raw ti = Nat.iter k EStar EStruct).
  Proof.
    unfold spec_to_schema. destruct (ti_raw ti) as [n t|t|sz e|k v|e| |].
    1-4: match goal with |- TTS ?a ?b ?d ?ms ?e = Panic <-> _ => change (TTS a b d ms e) with (TTS Panic Panic d ms e); rewrite type_panic end;
      (split; [intros H; right; split; [exact H|intros ([|k'] & E); discriminate E]|intros [[E _]|[C _]]; [discriminate E|exact C]]).
    - cbn [type_to_schema]. rewrite post_panic, below_panic. split.
      + intros [C N]. right. split; [constructor; exact C|]. intros ([|k] & E); [discriminate|]. injection E as E. apply N. exists k. exact E.
      + intros [[E _]|[C N]]; [discriminate|]. inversion C; subst. split; [assumption|]. intros (k & E). apply N. exists (S k). change (Nat.iter (S k) EStar EStruct) with (EStar (Nat.iter k EStar EStruct)). congruence.
    - cbn [type_to_schema]. rewrite post_panic, fields_panic. split; [intros H; left; auto|]. intros [[_ H]|[_ N]]; [exact H|]. exfalso. apply N. exists 0. reflexivity.
    - split; [discriminate|]. intros [[E _]|[C _]]; [discriminate|inversion C].
  Qed.
End Crash.
