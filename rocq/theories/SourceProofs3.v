(** * Proofs for C59: roles, manifests, fields; the order of the iterations. *)

From Coq Require Import List String Ascii Bool Arith QArith Lia Permutation.
From Verif Require Import GoLib GoLibFacts MapFacts SchemaModel DocModel RegistryModel CollectModel CollectSpec CollectProofs CollectFile CollectProps.
From Verif Require Import TablesModel TablesSpec TablesProofs SourceModel SourceSpec SourceProofs SourceProofs2.
From Verif Require RbacModel RbacSpec RbacProps WebhookModel WebhookSpec WebhookProps.
Import ListNotations.
Open Scope string_scope.
Open Scope list_scope.

Lemma not_for_types gs n : In n ["kubebuilder:rbac"; "kubebuilder:webhook"; "kubebuilder:webhookconfiguration"] -> forall k, ~ known gs k DescribesType n.
Proof.
  intros I k (g & _ & S). cbn in I.
  inversion S as [? ? ? ? ? C| |? ? J|? ? ? J|? ? ? J]; subst.
  - inversion C as [? ? ? ? ? E0|? ? ? ? ? E0|? ? ? J|? ? J|? ? J|? ? J]; subst; cbn in *; try (repeat destruct I as [I|I]; try discriminate; contradiction);
      repeat (destruct J as [J|J]; [injection J as <- <-; repeat destruct I as [I|I]; try discriminate; contradiction|]); contradiction.
  - cbn in J. repeat (destruct J as [J|J]; [first [discriminate J|injection J as <- <-; repeat destruct I as [I|I]; try discriminate; contradiction]|]). contradiction.
  - cbn in J. repeat (destruct J as [J|J]; [first [discriminate J|injection J as <- <-; repeat destruct I as [I|I]; try discriminate; contradiction]|]). contradiction.
Qed.

Lemma rules_in m r : In r (rules_of m) <-> In (TvRule r) (of_name m "kubebuilder:rbac").
Proof.
  unfold rules_of. rewrite in_flat_map. split; [intros (v & I & H); destruct v; try destruct H; try easy; now subst|]. intros I. exists (TvRule r). split; [exact I|now left].
Qed.
Lemma hooks_in m h : In h (snd (hooks_of m)) <-> In (TvHook h) (of_name m "kubebuilder:webhook").
Proof.
  cbn [hooks_of snd]. rewrite in_flat_map. split; [intros (v & I & H); destruct v; try destruct H; try easy; now subst|]. intros I. exists (TvHook h). split; [exact I|now left].
Qed.

(** ** Another order of the iterations *)
Section Reorder.
Variable fval : string -> option Q.
Variable json_read : string -> option json.
Variable gs : list generator.
Notation reg := (registry_of gs).
Notation read := (parse_value fval json_read).
Variable order order' : file -> list (nat * list marker) -> list (nat * list marker).
Hypothesis order_perm : forall f l, Permutation (order f l) l.
Hypothesis order_perm' : forall f l, Permutation (order' f l) l.

Lemma nodes_split f : parsed_file f -> exists ns l l', nodes_of gs order f = ns ++ [(h_id (f_root f), l)] /\ nodes_of gs order' f = ns ++ [(h_id (f_root f), l')] /\ Permutation l l' /\ mget Nat.eqb ns (h_id (f_root f)) = None.
Proof.
  intros (Rf & W).
  assert (E := res_eq payload reg (order f) (order_perm f) (f_groups f) (f_root f) (f_children f) Rf W _ (nodes_some gs order order_perm f (conj Rf W))).
  assert (E' := res_eq payload reg (order' f) (order_perm' f) (f_groups f) (f_root f) (f_children f) Rf W _ (nodes_some gs order' order_perm' f (conj Rf W))).
  cbv zeta in E, E'. eexists _, _, _. split; [exact E|]. split; [exact E'|]. split.
  - apply Permutation_app_head, Permutation_app_head. apply flat_map_perm. transitivity (assign (f_groups f) (walk true (Node (f_root f) (f_children f))) None (walk true (Node (f_root f) (f_children f)))); [apply order_perm|apply Permutation_sym, order_perm'].
  - rewrite keep_get. destruct (nodes_inv (f_groups f) (f_root f) (f_children f) W) as (s & I). rewrite <- (i_nodes _ _ _ _ I).
    destruct (mget Nat.eqb (s_nodes s) (h_id (f_root f))) as [l|] eqn:G; [|reflexivity]. exfalso.
    destruct (i_keys _ _ _ _ I _ _ G) as (t & x & Hx & Ei & Hk).
    assert (Q := same_header _ _ W t x true (f_root f) Hx (or_introl eq_refl) Ei). injection Q as _ ->. rewrite Rf in Hk. destruct Hk; discriminate.
Qed.
Lemma roots_perm f : parsed_file f -> Permutation (roots_of gs order f) (roots_of gs order' f).
Proof.
  intros P. destruct (nodes_split f P) as (ns & l & l' & E & E' & Pl & N). unfold roots_of, root_list. rewrite E, E', !get_app, N. cbn [mget]. rewrite Nat.eqb_refl. exact Pl.
Qed.
Lemma errors_perm f : parsed_file f -> Permutation (file_errors fval json_read gs order f) (file_errors fval json_read gs order' f).
Proof.
  intros P. destruct (nodes_split f P) as (ns & l & l' & E & E' & Pl & N). unfold file_errors. rewrite E, E', !flat_map_app. apply Permutation_app_head. cbn [flat_map]. rewrite !app_nil_r.
  unfold node_read. cbn [fst snd]. rewrite (proj2 (values_in_order payload tvalue reg read _ l "")), (proj2 (values_in_order payload tvalue reg read _ l' "")). apply flat_map_perm, Pl.
Qed.
Lemma flat_perm {X Y} (g g' : X -> list Y) l : (forall x, In x l -> Permutation (g x) (g' x)) -> Permutation (flat_map g l) (flat_map g' l).
Proof. induction l as [|x l IH]; intros H; [constructor|]. cbn. apply Permutation_app; [apply H; now left|apply IH; intros y Hy; apply H; now right]. Qed.
Lemma package_errors_perm p : Forall parsed_file p -> Permutation (package_errors fval json_read gs order p) (package_errors fval json_read gs order' p).
Proof. intros F. rewrite Forall_forall in F. apply flat_perm. intros f I. apply errors_perm, F, I. Qed.
Variable vorder vorder' : list (string * list tvalue) -> list (string * list tvalue).
Hypothesis vorder_perm : forall l, Permutation (vorder l) l.
Hypothesis vorder_perm' : forall l, Permutation (vorder' l) l.
Lemma named_perm p n : Forall parsed_file p -> Permutation (of_name (package_result fval json_read gs order vorder p) n) (of_name (package_result fval json_read gs order' vorder' p) n).
Proof.
  intros F. rewrite !result_named by assumption. rewrite Forall_forall in F. apply flat_perm. intros f I. apply flat_map_perm, roots_perm, F, I.
Qed.
Definition kept (order : file -> list (nat * list marker) -> list (nat * list marker)) vorder (p : package) : mvals :=
  match package_errors fval json_read gs order p with [] => package_result fval json_read gs order vorder p | _ => [] end.
Lemma kept_perm p n : Forall parsed_file p -> Permutation (of_name (kept order vorder p) n) (of_name (kept order' vorder' p) n).
Proof.
  intros F. unfold kept. assert (E := package_errors_perm p F). destruct (package_errors fval json_read gs order p) as [|e l].
  - apply Permutation_nil in E. rewrite E. now apply named_perm.
  - destruct (package_errors fval json_read gs order' p); [apply Permutation_sym, Permutation_nil in E; discriminate|constructor].
Qed.
End Reorder.

(** ** Webhooks *)
Lemma forall2_in {X Y} (R : X -> Y -> Prop) l l' : Forall2 R l l' -> (forall x, In x l -> exists y, In y l' /\ R x y) /\ (forall y, In y l' -> exists x, In x l /\ R x y).
Proof.
  induction 1 as [|x y l l' H _ (IH1 & IH2)]; [split; intros ? []|]. split.
  - intros z [<-|I]; [exists y; split; [now left|exact H]|]. destruct (IH1 z I) as (w & Iw & Hw). exists w. split; [now right|exact Hw].
  - intros z [<-|I]; [exists x; split; [now left|exact H]|]. destruct (IH2 z I) as (w & Iw & Hw). exists w. split; [now right|exact Hw].
Qed.
Section Hooks.
Import WebhookModel WebhookSpec.
Variable lower : string -> string.
Lemma collected_in m roots ws : collected lower m roots ws ->
  (forall r h, In r roots -> In h (snd r) -> h_mutating h = m -> exists w, In w ws /\ converted lower h w) /\
  (forall w, In w ws -> exists r h, In r roots /\ In h (snd r) /\ h_mutating h = m /\ converted lower h w).
Proof.
  intros (parts & F & ->). destruct (forall2_in _ _ _ F) as (F1 & F2). split.
  - intros r h Ir Ih Em. destruct (F1 r Ir) as (part & Ip & cs & Pc & _ & _ & Fc). assert (Ic : In h cs).
    { apply (Permutation_in _ (Permutation_sym Pc)). apply filter_In. split; [exact Ih|]. unfold of_kind. rewrite Em. apply Bool.eqb_reflx. }
    destruct (proj1 (forall2_in _ _ _ Fc) h Ic) as (w & Iw & C). exists w. split; [|exact C]. apply in_concat. now exists part.
  - intros w Iw. apply in_concat in Iw. destruct Iw as (part & Ip & Iw). destruct (F2 part Ip) as (r & Ir & cs & Pc & _ & _ & Fc). destruct (proj2 (forall2_in _ _ _ Fc) w Iw) as (h & Ih & C).
    apply (Permutation_in _ Pc) in Ih. apply filter_In in Ih. destruct Ih as (Ih & K). exists r, h. split; [exact Ir|]. split; [exact Ih|]. split; [unfold of_kind in K; now apply Bool.eqb_prop|exact C].
Qed.
Definition manifest_has (files : list (string * list object)) (kind : string) (w : webhook) : Prop :=
  exists name objs o, In (name, objs) files /\ In o objs /\ o_kind o = kind /\ In w (o_webhooks o).
Lemma manifest_iff ord roots files m w : is_order ord -> generate lower ord roots = Some files ->
  (manifest_has files (kind_name m) w -> exists r h, In r roots /\ In h (snd r) /\ h_mutating h = m /\ converted lower h w).
Proof.
  intros O G (name & objs & o & If & Io & K & Iw). destruct (WebhookProps.webhook_manifest lower ord roots files O G) as (muts & vals & Cm & Cv & E).
  assert (Q : (m = true /\ In w muts) \/ (m = false /\ In w vals)).
  { destruct muts as [|m1 muts], vals as [|v1 vals]; cbn in E; subst files; cbn in If; try contradiction; destruct If as [If|[]]; injection If as <- <-; cbn in Io;
      repeat destruct Io as [Io|Io]; subst; try contradiction; cbn in K, Iw; destruct m; cbn in K; try discriminate; auto. }
  destruct Q as [(-> & I)|(-> & I)]; [apply (proj2 (collected_in true roots muts Cm)), I|apply (proj2 (collected_in false roots vals Cv)), I].
Qed.
Lemma manifest_all ord roots files r h : is_order ord -> generate lower ord roots = Some files -> In r roots -> In h (snd r) -> exists w, manifest_has files (kind_name (h_mutating h)) w /\ converted lower h w.
Proof.
  intros O G Ir Ih. destruct (WebhookProps.webhook_manifest lower ord roots files O G) as (muts & vals & Cm & Cv & E).
  destruct (h_mutating h) eqn:M.
  - destruct (proj1 (collected_in true roots muts Cm) r h Ir Ih M) as (w & Iw & C). exists w. split; [|exact C]. destruct muts as [|m1 muts]; [destruct Iw|]. subst files.
    eexists _, _, _. split; [now left|]. split; [now left|]. split; [reflexivity|exact Iw].
  - destruct (proj1 (collected_in false roots vals Cv) r h Ir Ih M) as (w & Iw & C). exists w. split; [|exact C]. destruct vals as [|v1 vals]; [destruct Iw|]. subst files. destruct muts as [|m1 muts].
    + eexists _, _, _. split; [now left|]. split; [now left|]. split; [reflexivity|exact Iw].
    + eexists _, _, _. split; [now left|]. split; [right; now left|]. split; [reflexivity|exact Iw].
Qed.
End Hooks.
