(** * The steps after the parser, and all of them *)
From Coq Require Import List String Ascii Bool ZArith NArith QArith Permutation Relations Lia.
From Verif Require Import GoLib GoLibFacts MapFacts SchemaModel SchemaFacts RefModel ErrorsModel ValidSpec MarkModel MarkSpec StructModel FlattenModel NeedModel FlattenSpec WalkProofs FlattenProofs FlattenProofs2 FlattenProofs3 FlattenProofs4
  FlattenProofs5 FlattenProofs6 FlattenProofs7 FlattenProofs8 FlattenProps StructSpec StructProofs NeedProofs NeedProps DescModel DescSpec DescProps EmitModel EmitSpec EmitProofs EmitProofs2 EmitProofs3 EmitProofs4 EmitProofs5.
Import ListNotations.
Open Scope string_scope.
Open Scope list_scope.
Open Scope nat_scope.

Lemma map_children_node g s : plain_node s -> plain_node (map_children g s).
Proof.
  intros ((W1 & W2 & W3 & W4) & R & X1 & X2 & I & P & A). unfold plain_node, node_wf, mkeys, map_children in *. cbn [s_kw s_items s_props s_patprops s_deps s_defs s_addl].
  rewrite !map_map. cbn [fst]. rewrite P. repeat split; auto; [constructor| |].
  - destruct (s_items s) as [[o l]|]; [rewrite I; reflexivity|exact Logic.I].
  - destruct (s_addl s) as [[b [x|]]|]; try discriminate; exact A.
Qed.
Lemma map_children_all g s : plain_node s -> (forall c, In c (children s) -> plain (g c)) -> plain (map_children g s).
Proof.
  intros P H. apply all_nodes_intro; [apply map_children_node, P|]. rewrite children_map_children. intros c C. apply in_map_iff in C as (x & <- & I). exact (H x I).
Qed.
Lemma fl_plain n : forall s, plain s -> plain (fst (fl n s)).
Proof.
  induction n as [|n IH]; intros s P; [exact P|]. cbn [fl fst]. apply map_children_all; [apply (all_nodes_root _ _ (av_plain s P))|]. intros c C. apply IH. exact (all_nodes_child _ _ _ (av_plain s P) C).
Qed.
Lemma fl_stable n : forall m d s, wf_all s -> dle d s -> FlattenProofs4.need d s <= n -> FlattenProofs4.need d s <= m -> fl n s = fl m s.
Proof.
  assert (Z : forall d s, 0 < FlattenProofs4.need d s) by (intros d s; unfold FlattenProofs4.need; destruct (s_allOf s); lia).
  induction n as [|n IH]; intros m d s W D L1 L2; [pose proof (Z d s); lia|]. destruct m as [|m]; [pose proof (Z d s); lia|]. cbn [fl].
  assert (E : forall c, In c (children (av s)) -> fl n c = fl m c).
  { intros c C. destruct (need_child d s c W D C) as (d' & D' & L). apply (IH m d'); auto; try lia. eapply all_nodes_child; [apply av_wf, W|exact C]. }
  f_equal; [apply map_children_ext; intros c C; rewrite (E c C); reflexivity|]. f_equal. rewrite !flat_map_concat_map. f_equal. apply map_ext_in. intros c C. rewrite (E c C). reflexivity.
Qed.

(** ** Inlined schemas *)
Lemma inlined_plain lookup env : (forall id base, env id = Some base -> all_nodes gnode base) ->
  forall pkg s t, FlattenSpec.inlined lookup env preserve_fields pkg s t -> all_nodes gnode s -> plain t.
Proof.
  intros E pkg s t H. induction H as [pkg s g Hn Hc IH|pkg s r id base b Hr Hne Hl He Hb IH]; intros G.
  - destruct (all_nodes_root _ _ G) as (W & X1 & X2 & (I & P) & A & R & _). apply map_children_all.
    + unfold plain_node. repeat split; auto; try apply W. destruct Hn; [assumption|congruence].
    + intros c C. apply IH; [exact C|]. exact (all_nodes_child _ _ _ G C).
  - destruct (all_nodes_root _ _ G) as (W & X1 & X2 & (I & P) & A & _ & L). assert (Lf : children s = []) by (apply L; congruence).
    unfold preserve_fields. apply all_nodes_intro.
    + repeat split; try constructor; discriminate.
    + intros c [<-|[<-|[]]]; [apply IH, (E _ _ He)|]. apply all_nodes_intro.
      * unfold plain_node. repeat split; auto; apply W.
      * intros c C. change (children (with_kw s (clear_docs (s_kw s)))) with (children s) in C. rewrite Lf in C. destruct C.
Qed.

(** ** Descriptions *)
Lemma kw_ok_desc O k d v : kw_ok O (set_k_desc k d) v = kw_ok O k v.
Proof. reflexivity. Qed.
Lemma valid_descriptions O R s s' : only_descriptions_change R s s' -> all_nodes simple_node s -> forall v, valid O s' v = valid O s v.
Proof.
  intros (f & F & ->). induction s as [s IH] using schema_rec_ind. intros S v. destruct (all_nodes_root _ _ S) as [S1 S2].
  rewrite map_kw_map_children, (valid_rest' O (with_kw _ _)). change (with_kw (with_kw (map_children (map_kw f) s) (f (s_kw s))) kw0) with (with_kw (map_children (map_kw f) s) kw0).
  cbn [s_kw with_kw]. destruct (F (s_kw s)) as (d & -> & _). rewrite kw_ok_desc. change (s_kw s) with (s_kw (map_children (map_kw f) s)) at 1. rewrite <- (valid_rest' O (map_children (map_kw f) s)).
  apply (valid_map_children2 O (fun _ => True)); auto. intros c C x _. apply IH; [exact C|]. eapply all_nodes_child; eassumption.
Qed.
Lemma unmixed_descriptions R s s' : only_descriptions_change R s s' -> unmixed s' -> unmixed s.
Proof.
  intros (f & _ & ->) U x I. assert (I' : In (map_kw f x) (subschemas (map_kw f s))) by (rewrite map_kw_subschemas; apply in_map, I).
  specialize (U _ I'). rewrite map_kw_map_children in U. exact (proj1 (map_children_unmixed_node (map_kw f) x) U).
Qed.
Lemma truncate_result is_sterm is_space ord fuel n s : is_order ord -> schema_wf s -> ssize s <= fuel -> 0 < fuel ->
  exists s', truncate_description is_sterm is_space ord fuel n s = Some s' /\ exists R, only_descriptions_change R s s'.
Proof.
  intros Ho W L P. destruct (Z.ltb_spec n 0).
  - exists s. split; [apply desc_negative_limit; assumption|]. exists (fun _ _ => True). exists (fun k => set_k_desc k (k_desc k)). split; [eauto|].
    symmetry. apply map_kw_id. intros x _. destruct x as [[] ? ? ? ? ? ? ? ? ? ? ?]. reflexivity.
  - destruct (Z.eq_dec n 0) as [->|Nz].
    + destruct (desc_zero_limit is_sterm is_space ord s fuel Ho W L) as (s' & E & C & _). eauto.
    + destruct (desc_positive_limit is_sterm is_space ord s fuel (Z.to_nat n) Ho W L) as (s' & E & C); [lia|]. rewrite Z2Nat.id in E by lia. eauto.
Qed.

(** ** Requests, with more fuel *)
Section More.
  Variable order : marker_values -> marker_values.
  Variable sorted : list (string * smarker) -> list (string * smarker).
  Variable allow_dangerous ig : bool.
  Variable imports : string -> string -> bool.
  Variable pkg_markers : string -> marker_values.
  Variable types : ident -> option tinfo.
  Variable presets : string -> list (string * schema).
  Notation NEED := (NeedModel.need order sorted allow_dangerous ig imports pkg_markers types presets).
  Notation ALL := (need_all order sorted allow_dangerous ig imports pkg_markers types presets).
  Lemma need_more n : forall id st, NEED n id st <> NFuel -> NEED (S n) id st = NEED n id st.
  Proof.
    induction n as [|n IH]; intros id st H; [exfalso; apply H; reflexivity|]. rewrite need_eq in H. rewrite (need_eq _ _ _ _ _ _ _ _ (S n)), (need_eq _ _ _ _ _ _ _ _ n). cbv zeta in *.
    destruct (mget ident_eqb _ id); [reflexivity|]. destruct (types id) as [ti|]; [|reflexivity]. destruct (generated _ _ _ _ _ _ id ti) as [s reqs errs|]; [|reflexivity].
    revert H. generalize (put (need_package presets (fst id) st) id schema0).
    assert (K : forall l a, serve order sorted allow_dangerous ig imports pkg_markers types presets n id l a <> NFuel ->
       serve order sorted allow_dangerous ig imports pkg_markers types presets (S n) id l a = serve order sorted allow_dangerous ig imports pkg_markers types presets n id l a).
    { induction l as [|r l IHl]; intros a F; [reflexivity|]. cbn [serve] in *. assert (F1 : NEED n (target id r) a <> NFuel) by (intros E; rewrite E in F; apply F; reflexivity).
      rewrite (IH _ _ F1). destruct (NEED n (target id r) a); [apply IHl, F|reflexivity|reflexivity]. }
    intros p F. rewrite K; [reflexivity|]. intros E. rewrite E in F. apply F. reflexivity.
  Qed.
  Lemma all_more n m ids : n <= m -> forall st, ALL n ids st <> NFuel -> ALL m ids st = ALL n ids st.
  Proof.
    intros L. assert (One : forall id st, NEED n id st <> NFuel -> NEED m id st = NEED n id st).
    { intros id st H. induction L as [|m L IH]; [reflexivity|]. rewrite need_more; [exact IH|]. rewrite IH. exact H. }
    induction ids as [|id ids IH]; intros st H; [reflexivity|]. cbn [need_all] in *. assert (F : NEED n id st <> NFuel) by (intros E; rewrite E in H; apply H; reflexivity).
    rewrite (One _ _ F). destruct (NEED n id st); [apply IH, H|reflexivity|reflexivity].
  Qed.
End More.

Section Whole.
  Variable order : marker_values -> marker_values.
  Variable sorted : list (string * smarker) -> list (string * smarker).
  Hypothesis Ho : is_order order.
  Hypothesis Hs : sorts sorted.
  Variable allow_dangerous ig : bool.
  Variable imports : string -> string -> bool.
  Variable pkg_markers : string -> marker_values.
  Variable types : ident -> option tinfo.
  Variable presets : string -> list (string * schema).
  Hypothesis Hp : forall p, NoDup (map fst (presets p)).
  Variable ord : list string -> list string.
  Hypothesis Hord : is_order ord.
  Variable is_sterm is_space : N -> bool.
  Variable O : oracles.
  Variable root : ident.
  Variable rank : ident -> nat.
  Notation ALL := (need_all order sorted allow_dangerous ig imports pkg_markers types presets).
  Notation TAME := (tame order sorted allow_dangerous ig imports pkg_markers types presets root rank).
  Notation MADE := (all_made order sorted allow_dangerous ig imports pkg_markers types presets root).
  Notation EMIT := (emit order sorted allow_dangerous ig imports pkg_markers types presets ord is_sterm is_space).
  Notation CONF := (conforms O ig pkg_markers types presets).
  Variable n0 : nat.
  Hypothesis F0 : ALL n0 [root] (mkPS [] [] []) <> NFuel.

  Lemma emit_ok : TAME -> MADE -> exists F, forall fuel max_desc, F <= fuel -> exists s es, EMIT fuel max_desc root = EDone s [] [] es /\ all_nodes (fun x => k_ref (s_kw x) = None /\ NoDup (map fst (s_props x))) s /\
    (es = [] -> unmixed s -> forall v, null_free v = true -> (valid O s v = true <-> CONF root v)).
  Proof.
    intros T M.
    destruct (ALL n0 [root] (mkPS [] [] [])) as [st| |] eqn:E0; [| |exfalso; apply F0; reflexivity].
    2:{ exfalso. destruct (proj1 (schema_requests_panic order sorted allow_dangerous ig imports pkg_markers types presets Hp n0 [root] ltac:(rewrite E0; discriminate)) E0) as (id & ti & N & P & Et & G).
        destruct (M id N P) as (ti' & s & reqs & Et' & G'). congruence. }
    pose (env := fun i : ident => mget ident_eqb (ps_schemata st) i).
    assert (Henv : forall id s, env id = Some s <-> schema_of order sorted allow_dangerous ig imports pkg_markers types presets id = Some s /\
       (needed order sorted allow_dangerous ig imports pkg_markers types presets [root] id \/ (mget String.eqb (presets (fst id)) (snd id) <> None /\ exists id', needed order sorted allow_dangerous ig imports pkg_markers types presets [root] id' /\ fst id' = fst id)))
      by (exact (schema_requests_result order sorted allow_dangerous ig imports pkg_markers types presets Hp n0 [root] st E0)).
    assert (Er : ps_errs st = []).
    { destruct (ps_errs st) as [|[p x] l] eqn:El; [reflexivity|]. exfalso.
      destruct (proj1 (schema_requests_errors order sorted allow_dangerous ig imports pkg_markers types presets Hp n0 [root] st E0 p x)) as (id & N & _ & P & K); [rewrite El; left; reflexivity|].
      destruct (M id N P) as (ti & s & reqs & Et & G). rewrite Et in K. destruct K as (s' & reqs' & errs & e & G' & I & _). rewrite G in G'. injection G' as <- <- <-. destruct I. }
    assert (Nr : needed order sorted allow_dangerous ig imports pkg_markers types presets [root] root) by (apply needed_root; left; reflexivity).
    destruct (env_needed order sorted allow_dangerous ig imports pkg_markers types presets root M env Henv root Nr) as (base & Hb).
    pose proof (env_acyclic order sorted Ho Hs allow_dangerous ig imports pkg_markers types presets root rank T M env Henv) as Ac.
    destruct (flatten_type_inlines (find_ref imports) env rank root base Ac Hb) as (t & It & _ & Run). destruct (Run ord Hord) as (F1 & R1).
    pose proof (env_good order sorted Ho Hs allow_dangerous ig imports pkg_markers types presets root rank T M env Henv) as Eg.
    assert (Pt : plain t) by (eapply inlined_plain; [exact Eg|exact It|exact (Eg _ _ Hb)]).
    assert (Vt : forall v, null_free v = true -> (valid O t v = true <-> CONF root v)).
    { intros v Nv. rewrite (inline_constraints O (find_ref imports) env (sem imports O rank env) rank (sem_mean order sorted Ho Hs allow_dangerous ig imports pkg_markers types presets O root rank T M env Henv) Ac
        (fun id b H => good_simple _ (Eg id b H)) (fst root) base t (rank root) It (Ac _ _ Hb) (good_simple _ (Eg _ _ Hb)) v).
      apply (schema_conforms order sorted Ho Hs allow_dangerous ig imports pkg_markers types presets O root rank T M env Henv (S (rank root))); auto. }
    assert (Wt : schema_wf t) by (intros x I; apply (Pt x I)).
    set (n2 := 2 * ssize t + 2). set (t' := fst (fl n2 t)).
    exists (n0 + F1 + n2 + ssize t' + 1). intros fuel max_desc L. unfold emit.
    rewrite (all_more order sorted allow_dangerous ig imports pkg_markers types presets n0 fuel [root]), E0; [|lia|rewrite E0; discriminate].
    destruct (R1 fuel (mkFs [] []) ltac:(lia)) as (fs & Ef & Efs & _); [intros i s Hc; discriminate Hc|]. fold env. change (fun i : ident => mget ident_eqb (ps_schemata st) i) with env. rewrite Ef, Er.
    cbn [fs_errs] in Efs. rewrite Efs.
    destruct (embedded_fl ord fuel t Hord Wt (plain_refless t Pt) ltac:(lia)) as (es & Ee & Pe). rewrite Ee.
    assert (Es : fst (fl fuel t) = t').
    { unfold t'. rewrite (fl_stable fuel n2 (ssize t) t Wt (dle_size t _ (le_n _))); [reflexivity| |]; unfold FlattenProofs4.need, n2; destruct (s_allOf t); lia. }
    assert (Ve : es = [] -> unmixed t' -> forall v, null_free v = true -> (valid O t' v = true <-> CONF root v)).
    { intros -> Um v Nv. rewrite <- (Vt v Nv). rewrite (flatten_equivalent O ord t t' fuel v Hord Pt ltac:(lia)); auto; [|rewrite <- Es; exact Ee]. tauto. }
    pose proof (fl_plain n2 t Pt) as Pt'. fold t' in Pt'.
    rewrite Es. destruct max_desc as [n|]; [|exists t', es; split; [reflexivity|split; [intros x I; destruct (Pt' x I) as (W & K & _); split; [exact K|apply W]|exact Ve]]].
    destruct (truncate_result is_sterm is_space ord fuel n t' Hord ltac:(intros x I; apply (Pt' x I)) ltac:(lia) ltac:(lia)) as (t'' & Et & R & D). rewrite Et. exists t'', es. split; [reflexivity|].
    split. { destruct D as (f & Ff & ->). intros x I. rewrite map_kw_subschemas in I. apply in_map_iff in I as (y & <- & I). rewrite map_kw_kw. destruct (Ff (s_kw y)) as (d & -> & _). destruct (Pt' y I) as (W & K & _). split; [exact K|]. replace (s_props (map_kw f y)) with (map (fun p => (fst p, map_kw f (snd p))) (s_props y)) by (destruct y; reflexivity). rewrite map_map. apply W. }
    intros E Um v Nv. rewrite (valid_descriptions O R t' t'' D); [|intros x I; split; apply (Pt' x I)]. apply Ve; auto. eapply unmixed_descriptions; eassumption.
  Qed.

  (** Whether the types can be made is known after finitely many steps. *)
  Lemma emit_made : MADE \/ exists F, forall fuel max_desc s refs es, F <= fuel -> EMIT fuel max_desc root <> EDone s [] refs es.
  Proof.
    destruct (ALL n0 [root] (mkPS [] [] [])) as [st| |] eqn:E0; [| |exfalso; apply F0; reflexivity].
    - destruct (ps_errs st) as [|x l] eqn:El.
      + left. intros id N P. destruct (types id) as [ti|] eqn:Et.
        * destruct (generated order sorted allow_dangerous ig imports pkg_markers id ti) as [s reqs errs|] eqn:G.
          -- destruct errs as [|e errs]; [exists ti, s, reqs; auto|]. exfalso.
             assert (I : In (fst id, PGen e) (ps_errs st)); [|rewrite El in I; destruct I].
             apply (schema_requests_errors order sorted allow_dangerous ig imports pkg_markers types presets Hp n0 [root] st E0). exists id. rewrite Et. repeat split; auto. exists s, reqs, (e :: errs), e. repeat split; auto. left; reflexivity.
          -- exfalso. assert (Pn : ALL n0 [root] (mkPS [] [] []) = NPanic); [|congruence].
             apply (schema_requests_panic order sorted allow_dangerous ig imports pkg_markers types presets Hp n0 [root] ltac:(rewrite E0; discriminate)). eauto 6.
        * exfalso. assert (I : In (fst id, PUnknown (snd id)) (ps_errs st)); [|rewrite El in I; destruct I].
          apply (schema_requests_errors order sorted allow_dangerous ig imports pkg_markers types presets Hp n0 [root] st E0). exists id. rewrite Et. auto.
      + right. exists n0. intros fuel max_desc s refs es L. unfold emit. rewrite (all_more order sorted allow_dangerous ig imports pkg_markers types presets n0 fuel [root]), E0; [|lia|rewrite E0; discriminate]. rewrite El.
        destruct (flatten_type _ _ _ _ _ _) as [[[t|] fs]|]; try discriminate. destruct (flatten_embedded _ _ _) as [[t' es']|]; try discriminate. destruct max_desc; [|congruence]. destruct (truncate_description _ _ _ _ _ _); congruence.
    - right. exists n0. intros fuel max_desc s refs es L. unfold emit. rewrite (all_more order sorted allow_dangerous ig imports pkg_markers types presets n0 fuel [root]), E0; [discriminate|lia|rewrite E0; discriminate].
  Qed.
End Whole.
