(** * The CRD generator: proofs *)
From Coq Require Import List String Ascii Bool ZArith NArith QArith Permutation Relations Lia.
From Verif Require Import GoLib GoLibFacts MapFacts SchemaModel SchemaFacts RefModel ErrorsModel ValidSpec MarkModel MarkSpec StructModel FlattenModel NeedModel FlattenSpec StructSpec DescModel
  CrdModel CrdSpec CrdProofs4 CrdProps NeedProps EmitModel EmitSpec EmitProps WholeModel WholeSpec.
Import ListNotations.
Open Scope string_scope.
Open Scope list_scope.
Open Scope nat_scope.

Section Valid.
  Variable O : oracles.
  Lemma valid_props s v l k c x : valid O s v = true -> v = JObj l -> In (k, c) (s_props s) -> mget String.eqb l k = Some x -> valid O c x = true.
  Proof.
    destruct s as [kk it al oo an no pr ad pa de ai df]. intros V -> I G. cbn [valid s_props on_obj] in *. rewrite !andb_true_iff in V. destruct V as (_ & ((V & _) & _) & _).
    rewrite forallb_forall in V. specialize (V _ I). cbn in V. rewrite G in V. exact V.
  Qed.
  Lemma valid_set_props s p v : map fst p = map fst (s_props s) -> valid O s v = true ->
    (forall l k c x, v = JObj l -> In (k, c) p -> mget String.eqb l k = Some x -> valid O c x = true) -> valid O (set_props s p) v = true.
  Proof.
    destruct s as [kk it al oo an no pr ad pa de ai df]. change (set_props _ p) with (Sch kk it al oo an no p ad pa de ai df). cbn [s_props]. intros K V H. cbn [valid on_obj] in *. rewrite !andb_true_iff in *. destruct V as (V & W). split; [exact V|].
    destruct v as [| | | | |l]; cbn [on_obj] in *; auto. rewrite !andb_true_iff in *. destruct W as (((_ & W1) & W2) & W3). rewrite K. repeat split; auto.
    rewrite forallb_forall. intros [k c] I. cbn. destruct (mget String.eqb l k) as [x|] eqn:G; [|reflexivity]. apply (H l k c x); auto.
  Qed.
  Lemma object_valid v : valid O (set_type schema0 "object") v = true <-> is_object v.
  Proof.
    split.
    - destruct v; intros V; [..|eexists; reflexivity]; exfalso; unfold valid, kw_ok in V; cbn in V; discriminate V.
    - intros (l & ->). vm_compute. reflexivity.
  Qed.
End Valid.

Section Published.
  Variable O : oracles.
  Lemma published_accepts s s' values : NoDup (map fst (s_props s)) -> s' = set_props s (s_props s') -> map fst (s_props s') = map fst (s_props s) ->
    (forall k, mget String.eqb (s_props s') k = match mget String.eqb (s_props s) k with Some c => Some (if String.eqb k "metadata" then set_type schema0 "object" else c) | None => None end) ->
    (forall v, null_free v = true -> (valid O s v = true <-> values v)) -> accepts_values (valid O s') values.
  Proof.
    intros N E K G H v Nv. split.
    - intros V M. rewrite E. apply valid_set_props; [exact K|apply H; auto|]. intros l k c x -> I Gx.
      apply (MapFacts.in_mget _ _ String.eqb String.eqb_eq) in I; [|rewrite K; exact N]. rewrite G in I. destruct (mget String.eqb (s_props s) k) as [c'|] eqn:G'; [|discriminate]. injection I as <-.
      destruct (String.eqb_spec k "metadata") as [->|]; [apply object_valid, M, Gx|].
      eapply valid_props; [apply H; [exact Nv|exact V]|reflexivity| |exact Gx]. apply (MapFacts.mget_in _ _ String.eqb String.eqb_eq), G'.
    - intros V M. apply H; [exact Nv|]. assert (E' : s = set_props s' (s_props s)) by (rewrite E; destruct s; reflexivity). rewrite E'. apply valid_set_props; [symmetry; exact K|exact V|]. intros l k c x -> I Gx.
      destruct (String.eqb_spec k "metadata") as [->|Nk].
      + destruct (M x Gx) as (w & Nw & Vw & Mw). apply H in Vw; [|exact Nw]. destruct w as [| | | | |lw]; try discriminate Mw. eapply valid_props; [exact Vw|reflexivity|exact I|exact Mw].
      + eapply valid_props; [exact V|reflexivity| |exact Gx]. apply (MapFacts.mget_in _ _ String.eqb String.eqb_eq). rewrite G, (MapFacts.in_mget _ _ String.eqb String.eqb_eq _ _ _ N I).
        apply String.eqb_neq in Nk. rewrite Nk. reflexivity.
  Qed.
End Published.
