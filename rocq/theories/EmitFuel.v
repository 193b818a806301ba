(** * More fuel changes nothing *)
From Coq Require Import List String Bool ZArith NArith Lia.
From Verif Require Import GoLib SchemaModel WalkModel MarkModel StructModel FlattenModel NeedModel DescModel EmitModel EmitProofs6.
Import ListNotations.
Open Scope string_scope.
Open Scope list_scope.
Open Scope nat_scope.

Section Walk.
  Variable V St : Type.
  Variable visit : V -> schema -> St -> schema * St * option V.
  Variable finish : V -> schema -> St -> schema * St.
  Variable ord : list string -> list string.
  Lemma open_loop_more n : forall v s seen opened st x, open_loop V St visit n v s seen opened st = Some x -> open_loop V St visit (S n) v s seen opened st = Some x.
  Proof.
    induction n as [|n IH]; intros v s seen opened st x H; [discriminate|]. remember (S n) as m. cbn [open_loop]. subst m. cbn [open_loop] in H. destruct (visit v s st) as [[s1 st1] [v1|]]; [|exact H].
    destruct (k_ref (s_kw s1)) as [r|]; [|exact H]. destruct (_ || _); [exact H|]. apply IH, H.
  Qed.
  Section Children.
    Variable w w' : schema -> St -> option (schema * St).
    Hypothesis H : forall s st x, w s st = Some x -> w' s st = Some x.
    Ltac step K := match type of K with match ?e with _ => _ end = Some _ => destruct e as [[? ?]|] eqn:?; [|discriminate] end.
    Lemma walk_opt_more o st x : walk_opt St w o st = Some x -> walk_opt St w' o st = Some x.
    Proof. unfold walk_opt. destruct o; [|auto]. intros K. step K. erewrite H by eassumption. exact K. Qed.
    Lemma walk_list_more l : forall st x, walk_list St w l st = Some x -> walk_list St w' l st = Some x.
    Proof. induction l as [|s l IH]; intros st x K; [exact K|]. cbn [walk_list] in *. step K. erewrite H by eassumption. step K. erewrite IH by eassumption. exact K. Qed.
    Lemma walk_keys_more ks : forall m st x, walk_keys St w ks m st = Some x -> walk_keys St w' ks m st = Some x.
    Proof.
      induction ks as [|k ks IH]; intros m st x K; [exact K|]. cbn [walk_keys] in *. destruct (mget String.eqb m k); [|apply IH, K]. step K. erewrite H by eassumption. apply IH, K.
    Qed.
    Lemma walk_dep_keys_more ks : forall m st x, walk_dep_keys St w ks m st = Some x -> walk_dep_keys St w' ks m st = Some x.
    Proof.
      induction ks as [|k ks IH]; intros m st x K; [exact K|]. cbn [walk_dep_keys] in *. destruct (mget String.eqb m k) as [[o names]|]; [|apply IH, K]. step K. erewrite walk_opt_more by eassumption. apply IH, K.
    Qed.
    Lemma walk_items_more i st x : walk_items St w i st = Some x -> walk_items St w' i st = Some x.
    Proof. unfold walk_items. destruct i as [[o l]|]; [|auto]. intros K. step K. erewrite walk_opt_more by eassumption. step K. erewrite walk_list_more by eassumption. exact K. Qed.
    Lemma walk_orbool_more a st x : walk_orbool St w a st = Some x -> walk_orbool St w' a st = Some x.
    Proof. unfold walk_orbool. destruct a as [[b o]|]; [|auto]. intros K. step K. erewrite walk_opt_more by eassumption. exact K. Qed.
    Lemma walk_children_more s st x : walk_children ord w s st = Some x -> walk_children ord w' s st = Some x.
    Proof.
      unfold walk_children, walk_map, walk_deps. intros K.
      step K. erewrite walk_items_more by eassumption. step K. erewrite walk_list_more by eassumption. step K. erewrite walk_list_more by eassumption. step K. erewrite walk_list_more by eassumption.
      step K. erewrite walk_opt_more by eassumption. step K. erewrite walk_keys_more by eassumption. step K. erewrite walk_orbool_more by eassumption. step K. erewrite walk_keys_more by eassumption.
      step K. erewrite walk_dep_keys_more by eassumption. step K. erewrite walk_orbool_more by eassumption. step K. erewrite walk_keys_more by eassumption. exact K.
    Qed.
  End Children.
  Lemma walk_more1 n : forall v s st x, walk visit finish ord n v s st = Some x -> walk visit finish ord (S n) v s st = Some x.
  Proof.
    induction n as [|n IH]; intros v s st x K; [discriminate|]. remember (S n) as m. cbn [walk]. rewrite Heqm in K. cbn [walk] in K.
    match type of K with match ?e with _ => _ end = _ => destruct e as [[[[s1 st1] opened] o]|] eqn:E; [|discriminate] end. subst m. rewrite (open_loop_more _ _ _ _ _ _ _ E).
    destruct o as [v1|]; [|exact K]. match type of K with match ?e with _ => _ end = _ => destruct e as [[s2 st2]|] eqn:Ec; [|discriminate] end.
    rewrite (walk_children_more _ _ (IH v1) _ _ _ Ec). exact K.
  Qed.
  Lemma walk_more n m v s st x : n <= m -> walk visit finish ord n v s st = Some x -> walk visit finish ord m v s st = Some x.
  Proof. intros L K. induction L as [|m L IH]; [exact K|]. apply walk_more1, IH. Qed.
End Walk.

Section Emit.
  Variable order : marker_values -> marker_values.
  Variable sorted : list (string * smarker) -> list (string * smarker).
  Variable allow_dangerous ig : bool.
  Variable imports : string -> string -> bool.
  Variable pkg_markers : string -> marker_values.
  Variable types : ident -> option tinfo.
  Variable presets : string -> list (string * schema).
  Variable ord : list string -> list string.
  Variable is_sterm is_space : N -> bool.
  Notation EMIT := (emit order sorted allow_dangerous ig imports pkg_markers types presets ord is_sterm is_space).
  Lemma emit_more n m max_desc root x : n <= m -> x <> EFuel -> EMIT n max_desc root = x -> EMIT m max_desc root = x.
  Proof.
    intros L Nx. unfold emit. destruct (need_all _ _ _ _ _ _ _ _ n [root] _) as [st| |] eqn:E; [| |congruence];
      rewrite (all_more order sorted allow_dangerous ig imports pkg_markers types presets n m [root] L _) by (rewrite E; discriminate); rewrite E; [|auto].
    unfold flatten_type. cbn [fs_cache mget]. destruct (mget ident_eqb (ps_schemata st) root) as [base|]; [|auto]. unfold flatten_schema.
    destruct (walk _ _ ord n _ base _) as [[t fs]|] eqn:Ew; [|congruence]. rewrite (walk_more _ _ _ _ _ n m _ _ _ _ L Ew).
    unfold flatten_embedded. match goal with |- match ?e with _ => _ end = _ -> _ => destruct e as [[t' es]|] eqn:Ef; [|congruence] end. rewrite (walk_more _ _ _ _ _ n m _ _ _ _ L Ef).
    destruct max_desc as [z|]; [|auto]. unfold truncate_description. match goal with |- match match ?e with _ => _ end with _ => _ end = _ -> _ => destruct e as [[t'' es']|] eqn:Et; [|congruence] end.
    rewrite (walk_more _ _ _ _ _ n m _ _ _ _ L Et). auto.
  Qed.
End Emit.
