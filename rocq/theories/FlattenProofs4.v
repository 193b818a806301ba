(** * FlattenEmbedded: the walk. *)

From Coq Require Import List String ZArith QArith Bool Lia Permutation.
From Verif Require Import GoLib GoLibFacts SchemaModel SchemaFacts WalkModel WalkSpec WalkProofs FlattenModel ValidSpec FlattenSpec
  FlattenProofs FlattenProofs2 FlattenProofs3.
Import ListNotations.
Open Scope string_scope.
Open Scope list_scope.
Open Scope nat_scope.

(** ** Depth, not counting allOf *)
Inductive dle : nat -> schema -> Prop :=
| dle_intro n s : (forall e, In e (s_allOf s) -> dle n e) -> (forall c, In c (nonall s) -> 0 < n /\ dle (pred n) c) -> dle n s.

Lemma dle_size s : forall n, ssize s <= n -> dle n s.
Proof.
  induction s as [s IH] using schema_rec_ind. intros n Hn. constructor.
  - intros e He. apply in_allOf_child in He. pose proof (child_smaller _ _ He). apply IH; [exact He|lia].
  - intros c Hc. assert (Hc' : In c (children s)) by (apply in_children_split; auto). pose proof (child_smaller _ _ Hc'). split; [lia|].
    apply IH; [exact Hc'|lia].
Qed.
Lemma dle_schema0 n : dle n schema0.
Proof. constructor; intros c []. Qed.
Lemma dle_allOf n s e : dle n s -> In e (s_allOf s) -> dle n e.
Proof. intros H. inversion H; subst. auto. Qed.
Lemma dle_nonall n s c : dle n s -> In c (nonall s) -> 0 < n /\ dle (pred n) c.
Proof. intros H. inversion H; subst. auto. Qed.

Lemma into_dle src : forall n d, wf_all d -> wf_all src -> dle n d -> dle n src -> dle n (into d src).
Proof.
  induction src as [src IH] using schema_rec_ind. intros n dst Wdst Ws Hdst Hs. rewrite into_eq. cbv zeta.
  assert (Wl : forall e, In e (s_allOf src) -> wf_all e) by (intros e He; eapply all_nodes_child; [exact Ws|apply in_allOf_child, He]).
  assert (Hd : wf_all (fold_schema (s_allOf src) dst) /\ dle n (fold_schema (s_allOf src) dst)).
  { split; [apply fold_schema_wf; assumption|]. pose proof (dle_allOf n src) as Hl. specialize (fun e => Hl e Hs).
    assert (Hin : forall e, In e (s_allOf src) -> In e (children src)) by (intros; apply in_allOf_child; assumption).
    revert dst Wdst Hdst Wl Hl Hin. generalize (s_allOf src) as l. clear - IH. induction l as [|e l IHl]; intros dst Wd Hd Wl Hl Hin; [exact Hd|].
    rewrite fold_schema_cons. apply IHl; auto with datatypes. apply into_wf; auto with datatypes. }
  destruct Hd as [Wd Hd]. clear Wdst Hdst Wl. set (d := fold_schema (s_allOf src) dst) in *. clearbody d.
  pose proof (all_nodes_root _ _ Wd) as (Nd & _). pose proof (all_nodes_root _ _ Ws) as (Ns & _).
  assert (Od : forall c, In c (others d) -> 0 < n /\ dle (pred n) c) by (intros c Hc; apply (dle_nonall n d c Hd), in_nonall; auto).
  assert (Os : forall c, In c (others src) -> 0 < n /\ dle (pred n) c) by (intros c Hc; apply (dle_nonall n src c Hs), in_nonall; auto).
  constructor.
  - intros e He. unfold merge_node in He. cbn [s_allOf] in He. apply in_app_iff in He as [He|He]; [exact (dle_allOf n d e Hd He)|].
    destruct (kw_clash (s_kw d) (s_kw src) || struct_clash d src); [|destruct He]. destruct He as [<-|[<-|[]]].
    + constructor; [intros x []|]. intros c Hc. apply Od. apply (in_others_drem d src). apply in_children_split. auto.
    + constructor; [intros x []|]. intros c Hc. apply Os. apply (in_others_srem d src). apply in_children_split. auto.
  - intros c Hc. apply in_nonall in Hc as [Hc|[Hc|Hc]].
    + unfold merge_node in Hc. cbn [s_props] in Hc. apply in_map_iff in Hc as ([k x] & <- & Hc). cbn [snd].
      apply merge_props_in in Hc; [|assumption|assumption]. destruct Hc as [Hc|[Hc|(a & b & Ha & Hb & ->)]].
      * apply (dle_nonall n d x Hd), in_nonall. left. apply in_map_iff. exists (k, x). auto.
      * apply (dle_nonall n src x Hs), in_nonall. left. apply in_map_iff. exists (k, x). auto.
      * destruct (dle_nonall n d a Hd) as [Hn Ha']; [apply in_nonall; left; apply in_map_iff; exists (k, a); auto|].
        destruct (dle_nonall n src b Hs) as [_ Hb']; [apply in_nonall; left; apply in_map_iff; exists (k, b); auto|]. split; [exact Hn|].
        apply in_props_child in Ha, Hb. apply (IH b Hb); [eapply all_nodes_child; [exact Wd|exact Ha]|eapply all_nodes_child; [exact Ws|exact Hb]|exact Ha'|exact Hb'].
    + unfold merge_node in Hc. cbn [s_addl] in Hc. apply merge_addl_in in Hc as [Hc|[Hc|(x & y & Hx & Hy & ->)]].
      * apply (dle_nonall n src c Hs), in_nonall. auto.
      * apply (dle_nonall n d c Hd), in_nonall. auto.
      * destruct (dle_nonall n src x Hs) as [Hn Hx']; [apply in_nonall; auto|]. split; [exact Hn|].
        assert (Hc : In x (children src)) by (apply in_children; auto). apply IH; [exact Hc| |eapply all_nodes_child; [exact Ws|exact Hc]| |exact Hx'].
        -- destruct Hy as [Hy| ->]; [eapply all_nodes_child; [exact Wd|apply in_children; auto]|apply all_schema0, schema0_wf].
        -- destruct Hy as [Hy| ->]; [apply (dle_nonall n d y Hd), in_nonall; auto|apply dle_schema0].
    + assert (Hc' : In c (others (merge_node d src [] None))) by exact Hc. apply in_others_keep in Hc' as [Hc'|Hc']; [apply Od|apply Os]; exact Hc'.
Qed.

Lemma fold_dle l : forall n d, wf_all d -> (forall e, In e l -> wf_all e) -> dle n d -> (forall e, In e l -> dle n e) -> dle n (fold_schema l d).
Proof.
  induction l as [|e l IH]; intros n d Wd Wl Hd Hl; [exact Hd|]. rewrite fold_schema_cons. apply IH; auto with datatypes.
  - apply into_wf; auto with datatypes.
  - apply into_dle; auto with datatypes.
Qed.

(** The allOf members left by a merge are flat: no allOf. *)
Definition flat_allOf (s : schema) : Prop := forall e, In e (s_allOf s) -> s_allOf e = [].
Lemma merge_flat d s P A : flat_allOf d -> flat_allOf (merge_node d s P A).
Proof.
  intros H e. unfold merge_node. cbn [s_allOf]. rewrite in_app_iff. intros [He|He]; [apply H, He|].
  destruct (_ || _); [|destruct He]. destruct He as [<-|[<-|[]]]; reflexivity.
Qed.
Lemma into_flat src : forall d, flat_allOf d -> flat_allOf (into d src).
Proof.
  induction src as [src IH] using schema_rec_ind. intros d Hd. rewrite into_eq. apply merge_flat.
  assert (Hin : forall e, In e (s_allOf src) -> In e (children src)) by (intros; apply in_allOf_child; assumption).
  revert d Hd Hin. generalize (s_allOf src) as l. induction l as [|e l IHl]; intros d Hd Hin; [exact Hd|].
  rewrite fold_schema_cons. apply IHl; auto with datatypes.
Qed.
Lemma fold_flat l : forall d, flat_allOf d -> flat_allOf (fold_schema l d).
Proof. induction l as [|e l IH]; intros d Hd; [exact Hd|]. rewrite fold_schema_cons. apply IH, into_flat, Hd. Qed.

(** ** The visitor on one node *)
Definition av (s : schema) : schema := fold_schema (s_allOf s) (set_allOf s []).
Definition av_errs (s : schema) : list terr := fold_errs (s_allOf s) (set_allOf s []).
Lemma allof_visit_eq s : allof_visit s = (av s, av_errs s).
Proof. unfold av, av_errs, fold_schema, fold_errs. rewrite <- surjective_pairing. reflexivity. Qed.

Lemma all_set_allOf (Q : schema -> Prop) s : (forall s, Q s -> Q (set_allOf s [])) -> all_nodes Q s -> all_nodes Q (set_allOf s []).
Proof.
  intros HQ H. apply all_nodes_intro; [apply HQ, (all_nodes_root _ _ H)|]. intros c Hc. eapply all_nodes_child; [exact H|].
  apply in_children. apply in_children in Hc. simpl in Hc. destruct Hc as [[]|Hc]. right; exact Hc.
Qed.
Lemma wf_set_allOf s : wf_all s -> wf_all (set_allOf s []).
Proof. apply all_set_allOf. auto. Qed.
Lemma plain_set_allOf s : plain s -> plain (set_allOf s []).
Proof. apply all_set_allOf. auto. Qed.
Lemma dle_set_allOf n s : dle n s -> dle n (set_allOf s []).
Proof. intros H. constructor; [intros e []|]. intros c Hc. exact (dle_nonall n s c H Hc). Qed.
Lemma child_allOf_all Q s e : all_nodes Q s -> In e (s_allOf s) -> all_nodes Q e.
Proof. intros H He. eapply all_nodes_child; [exact H|apply in_allOf_child, He]. Qed.

Lemma av_wf s : wf_all s -> wf_all (av s).
Proof. intros H. apply fold_schema_wf; [apply wf_set_allOf, H|intros e; apply child_allOf_all, H]. Qed.
Lemma av_plain s : plain s -> plain (av s).
Proof. intros H. apply fold_schema_plain; [apply plain_set_allOf, H|intros e; apply child_allOf_all, H]. Qed.
Lemma av_dle n s : wf_all s -> dle n s -> dle n (av s).
Proof.
  intros W H. apply fold_dle; [apply wf_set_allOf, W|intros e; apply child_allOf_all, W|apply dle_set_allOf, H|intros e; apply dle_allOf, H].
Qed.
Lemma av_flat s : flat_allOf (av s).
Proof. apply fold_flat. intros e []. Qed.
Lemma av_id s : s_allOf s = [] -> av s = s.
Proof. intros H. unfold av. rewrite H. destruct s; simpl in *; subst; reflexivity. Qed.

(** ** The result of the walk, without the walk *)
Fixpoint fl (n : nat) (s : schema) : schema * list terr :=
  match n with
  | 0 => (s, [])
  | S n' => (map_children (fun c => fst (fl n' c)) (av s), av_errs s ++ flat_map (fun c => snd (fl n' c)) (children (av s)))
  end.

Definition need (n : nat) (s : schema) : nat := 2 * n + match s_allOf s with [] => 1 | _ => 2 end.

Lemma need_child n s c : wf_all s -> dle n s -> In c (children (av s)) ->
  exists m, dle m c /\ need m c < need n s.
Proof.
  intros W H Hc. pose proof (av_dle n s W H) as Hav. apply in_children_split in Hc as [Hc|Hc].
  - pose proof (av_flat s c Hc) as Hf. exists n. split; [exact (dle_allOf n _ c Hav Hc)|]. unfold need. rewrite Hf.
    destruct (s_allOf s) eqn:E; [|lia]. rewrite av_id, E in Hc by exact E. destruct Hc.
  - destruct (dle_nonall n _ c Hav Hc) as [Hn Hd]. exists (pred n). split; [exact Hd|]. unfold need. destruct (s_allOf c), (s_allOf s); lia.
Qed.

Definition refless : schema -> Prop := all_nodes (fun s => k_ref (s_kw s) = None).

Section FlattenWalk.
  Variable ord : list string -> list string.
  Hypothesis Hord : is_order ord.
  (** Properties that flattening keeps, in particular having no references. *)
  Definition good (s : schema) : Prop := wf_all s /\ refless s.

  Lemma into_refless d s : good d -> good s -> good (into d s).
  Proof.
    intros [W1 R1] [W2 R2]. split; [apply into_wf; assumption|].
    assert (H : all_nodes (fun x => node_wf x /\ k_ref (s_kw x) = None) (into d s)).
    { apply into_all; [intros x Hx; apply Hx|split; [apply schema0_wf|reflexivity]|..].
      - intros a b [Wa Ra] [Wb Rb]. split; [apply merge_node_wf; assumption|]. simpl. rewrite Ra, Rb. reflexivity.
      - intros a b [Wa Ra] [Wb Rb]. split; [apply drem_node_wf; assumption|]. simpl. rewrite Ra, Rb. reflexivity.
      - intros a b [Wa Ra] [Wb Rb]. split; [apply srem_node_wf; assumption|]. simpl. rewrite Ra, Rb. reflexivity.
      - intros x Hx. split; [apply W1, Hx|apply R1, Hx].
      - intros x Hx. split; [apply W2, Hx|apply R2, Hx]. }
    intros x Hx. apply (H x Hx).
  Qed.
  Lemma good_child s c : good s -> In c (children s) -> good c.
  Proof. intros [W R] Hc. split; eapply all_nodes_child; eauto. Qed.
  Lemma av_good s : good s -> good (av s).
  Proof.
    intros H. unfold av. assert (Hl : forall e, In e (s_allOf s) -> good e) by (intros e He; eapply good_child; [exact H|apply in_allOf_child, He]).
    assert (Hd : good (set_allOf s [])) by (destruct H; split; [apply wf_set_allOf; assumption|apply all_set_allOf; auto]).
    revert Hl Hd. generalize (s_allOf s) as l. generalize (set_allOf s []) as d. intros d l. revert d.
    induction l as [|e l IH]; intros d Hl Hd; [exact Hd|]. rewrite fold_schema_cons. apply IH; [auto with datatypes|]. apply into_refless; auto with datatypes.
  Qed.

  Definition aview := (fun (_ : unit) s (es : list terr) => let (s', es') := allof_visit s in (s', es ++ es', Some tt)).

  Lemma walk_fl : forall fuel n s st, good s -> dle n s -> need n s <= fuel ->
    exists es, walk aview (fun _ s es => (s, es)) ord fuel tt s st = Some (fst (fl fuel s), es) /\ Permutation es (st ++ snd (fl fuel s)).
  Proof.
    induction fuel as [|fuel IH]; intros n s st G Hn Hf; [unfold need in Hf; destruct (s_allOf s); lia|].
    cbn [walk]. pose proof (av_good s G) as Ga.
    assert (Ra : k_ref (s_kw (av s)) = None) by (destruct Ga as [_ R]; apply (all_nodes_root _ _ R)).
    assert (Rs : k_ref (s_kw s) = None) by (destruct G as [_ R]; apply (all_nodes_root _ _ R)).
    rewrite (open_loop_one _ _ _ fuel tt s [] st (av s) (st ++ av_errs s) tt); [|unfold aview; rewrite allof_visit_eq; reflexivity|congruence].
    destruct (walk_children_spec (list terr) (walk aview (fun _ s es => (s, es)) ord fuel tt) (fun c => fst (fl fuel c))
      (fun c es es' => Permutation es' (es ++ snd (fl fuel c))) ord Hord (av s) (st ++ av_errs s)) as (st' & cs & E & Hcs & Hch).
    - destruct Ga as [W _]. apply (all_nodes_root _ _ W).
    - intros c Hc es. destruct (need_child n s c (proj1 G) Hn Hc) as (m & Hm & Hl). apply (IH m); [eapply good_child; eauto|exact Hm|lia].
    - rewrite E. cbn [close_all fl fst snd]. exists st'. split; [reflexivity|].
      apply child_order_perm in Hcs. rewrite app_assoc.
      transitivity ((st ++ av_errs s) ++ flat_map (fun c => snd (fl fuel c)) cs).
      + clear - Hch. revert Hch. generalize (st ++ av_errs s) as a. induction cs as [|c cs IH]; simpl; intros a H; [subst; rewrite app_nil_r; reflexivity|].
        destruct H as (a1 & H1 & H2). rewrite (IH _ H2). rewrite H1, app_assoc. reflexivity.
      + apply Permutation_app_head. apply Permutation_flat_map. exact Hcs.
  Qed.
End FlattenWalk.
