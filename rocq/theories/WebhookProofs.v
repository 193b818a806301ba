(** * Proofs on the webhook generator. *)

From Coq Require Import List String Bool ZArith Permutation Sorted Lia.
From Verif Require Import GoLib GoLibFacts WebhookModel WebhookSpec.
Import ListNotations.
Open Scope string_scope.
Open Scope list_scope.

(** ** Stable sorting *)
Lemma insert_filter (A : Type) (lt : A -> A -> bool) (p : A -> bool) x l :
  (forall y, p y = true -> p x = true -> lt y x = false) ->
  filter p (insert_by lt x l) = filter p (x :: l).
Proof.
  intros H. induction l as [|y l IH]; [reflexivity|]. cbn [insert_by]. destruct (lt y x) eqn:E; [|reflexivity].
  cbn [filter]. rewrite IH. cbn [filter]. destruct (p x) eqn:Px; [|reflexivity]. destruct (p y) eqn:Py; [|reflexivity]. rewrite (H y Py eq_refl) in E. discriminate.
Qed.
Lemma sort_stable (A : Type) (lt : A -> A -> bool) (p : A -> bool) l :
  (forall x y, p x = true -> p y = true -> lt x y = false) -> filter p (sort_by lt l) = filter p l.
Proof.
  intros H. induction l as [|x l IH]; [reflexivity|]. cbn [sort_by]. rewrite insert_filter by (intros y Py Px; apply H; assumption).
  cbn [filter]. rewrite IH. reflexivity.
Qed.
Lemma filter_comm (A : Type) (p q : A -> bool) l : filter p (filter q l) = filter q (filter p l).
Proof.
  induction l as [|x l IH]; [reflexivity|]. simpl. destruct (q x) eqn:Q; destruct (p x) eqn:P; simpl; rewrite ?Q, ?P, IH; reflexivity.
Qed.
Lemma perm_filter (A : Type) (p : A -> bool) l l' : Permutation l l' -> Permutation (filter p l) (filter p l').
Proof.
  induction 1 as [|x l l' H IH|x y l|l l1 l2 H1 IH1 H2 IH2]; simpl; auto.
  - destruct (p x); auto.
  - destruct (p x), (p y); auto. apply perm_swap.
  - etransitivity; eauto.
Qed.
Lemma sorted_filter (A : Type) (R : A -> A -> Prop) (p : A -> bool) l : StronglySorted R l -> StronglySorted R (filter p l).
Proof.
  induction 1 as [|x l H IH F]; simpl; [constructor|]. destruct (p x); auto. constructor; auto. apply Forall_forall. intros y Hy.
  apply filter_In in Hy as [Hy _]. rewrite Forall_forall in F. auto.
Qed.

Section Proofs.
  Variable lower : string -> string.
  Notation to_webhook := (to_webhook lower).
  Notation converted := (converted lower).
  Notation acceptable := (acceptable lower).

  Lemma same_word_eq a b : same_word lower a b = true <-> lower a = lower b.
  Proof. apply String.eqb_eq. Qed.
  Lemma same_word_neq a b : same_word lower a b = false <-> lower a <> lower b.
  Proof. apply String.eqb_neq. Qed.

  Ltac words := repeat match goal with
    | H : same_word lower _ _ = true |- _ => apply same_word_eq in H
    | H : same_word lower _ _ = false |- _ => apply same_word_neq in H
    end.

  Lemma verb_normal v : normal lower ["CREATE"; "UPDATE"; "DELETE"; "CONNECT"; "*"] v (verb_to_api lower v).
  Proof.
    unfold verb_to_api, normal, spells, unknown.
    destruct (same_word lower v "CREATE") eqn:E1; [words; left; simpl; auto|]. destruct (same_word lower v "UPDATE") eqn:E2; [words; left; simpl; auto|].
    destruct (same_word lower v "DELETE") eqn:E3; [words; left; simpl; auto|]. destruct (same_word lower v "CONNECT") eqn:E4; [words; left; simpl; auto 6|].
    destruct (same_word lower v "*") eqn:E5; [words; left; simpl; auto 8|]. words. right. split; [|reflexivity].
    intros k [<-|[<-|[<-|[<-|[<-|[]]]]]]; assumption.
  Qed.
  Lemma failure_normal c : normal lower ["Ignore"; "Fail"] (h_failure c) (failure_policy lower c).
  Proof.
    unfold failure_policy, normal, spells, unknown. destruct (same_word lower (h_failure c) "Ignore") eqn:E1; [words; left; simpl; auto|].
    destruct (same_word lower (h_failure c) "Fail") eqn:E2; [words; left; simpl; auto|]. words. right. split; [|reflexivity]. intros k [<-|[<-|[]]]; assumption.
  Qed.
  Lemma side_optional c : optional lower ["None"; "NoneOnDryRun"; "Some"] (h_side c) (side_effects lower c).
  Proof.
    unfold side_effects, optional, spells, unknown. destruct (same_word lower (h_side c) "None") eqn:E1; [words; simpl; auto|].
    destruct (same_word lower (h_side c) "NoneOnDryRun") eqn:E2; [words; simpl; auto|]. destruct (same_word lower (h_side c) "Some") eqn:E3; [words; simpl; auto|].
    words. intros k [<-|[<-|[<-|[]]]]; assumption.
  Qed.
  Lemma reinvocation_optional c : optional lower ["Never"; "IfNeeded"] (h_reinvocation c) (reinvocation_policy lower c).
  Proof.
    unfold reinvocation_policy, optional, spells, unknown. destruct (same_word lower (h_reinvocation c) "Never") eqn:E1; [words; simpl; auto|].
    destruct (same_word lower (h_reinvocation c) "IfNeeded") eqn:E2; [words; simpl; auto|]. words. intros k [<-|[<-|[]]]; assumption.
  Qed.

  Lemma int32_spec z : (-2147483648 <= int32 z < 2147483648)%Z /\ exists k, (z = int32 z + k * 4294967296)%Z.
  Proof.
    unfold int32. pose proof (Z.mod_pos_bound (z + 2147483648) 4294967296 ltac:(lia)). split; [lia|].
    exists ((z + 2147483648) / 4294967296)%Z. pose proof (Z.div_mod (z + 2147483648) 4294967296 ltac:(lia)). lia.
  Qed.
  Lemma timeout_of_iff c o : timeout_of (h_timeout c) o <-> o = timeout_seconds c.
  Proof.
    unfold timeout_of, timeout_seconds. destruct (Z.eqb_spec (h_timeout c) 0) as [E|E].
    - destruct o as [t|]; [|tauto]. split; [intros (H & _); contradiction|discriminate].
    - destruct (int32_spec (h_timeout c)) as (H1 & k & H2). destruct o as [t|].
      + split; [|intros [= ->]; eauto]. intros (_ & H3 & k' & H4). f_equal. nia.
      + split; [intros; contradiction|discriminate].
  Qed.

  Lemma client_some c cc : client_config c = Some cc -> client_of c cc.
  Proof.
    unfold client_config. destruct (String.eqb_spec (h_path c) "") as [Ep|Ep]; destruct (String.eqb_spec (h_url c) "") as [Eu|Eu]; simpl; try discriminate; intros [= <-]; simpl.
    - auto.
    - repeat split; auto; unfold default_to.
      + destruct (String.eqb_spec (h_service c) ""); auto.
      + destruct (String.eqb_spec (h_namespace c) ""); auto.
  Qed.
  Lemma client_none c : client_config c = None <-> ~ ((h_path c = "" /\ h_url c <> "") \/ (h_path c <> "" /\ h_url c = "")).
  Proof.
    unfold client_config. destruct (String.eqb_spec (h_path c) "") as [Ep|Ep]; destruct (String.eqb_spec (h_url c) "") as [Eu|Eu]; simpl; split; try discriminate; try reflexivity; tauto.
  Qed.
  Lemma match_some c mp : match_policy lower c = Some mp -> match mp with Some k => spells lower ["Exact"; "Equivalent"] (h_match c) k | None => lower (h_match c) = "" end.
  Proof.
    unfold match_policy, spells. destruct (same_word lower (h_match c) "Exact") eqn:E1; [words; intros [= <-]; simpl; auto|].
    destruct (same_word lower (h_match c) "Equivalent") eqn:E2; [words; intros [= <-]; simpl; auto|]. destruct (String.eqb_spec (lower (h_match c)) ""); [|discriminate].
    intros [= <-]. assumption.
  Qed.
  Lemma match_none c : match_policy lower c = None <-> ~ ((exists k, spells lower ["Exact"; "Equivalent"] (h_match c) k) \/ lower (h_match c) = "").
  Proof.
    unfold match_policy, spells. destruct (same_word lower (h_match c) "Exact") eqn:E1; [words; split; [discriminate|intros H; exfalso; apply H; left; exists "Exact"; simpl; auto]|].
    destruct (same_word lower (h_match c) "Equivalent") eqn:E2; [words; split; [discriminate|intros H; exfalso; apply H; left; exists "Equivalent"; simpl; auto]|].
    destruct (String.eqb_spec (lower (h_match c)) ""); [split; [discriminate|tauto]|]. words. split; [|reflexivity]. intros _ [(k & [<-|[<-|[]]] & H)|H]; contradiction.
  Qed.

  Lemma groups_of l : Forall2 group_of l (map (fun g => if String.eqb g "core" then "" else g) l).
  Proof. induction l as [|g l IH]; simpl; constructor; auto. unfold group_of. destruct (String.eqb_spec g "core"); auto. Qed.
  Lemma verbs_of l : Forall2 (normal lower ["CREATE"; "UPDATE"; "DELETE"; "CONNECT"; "*"]) l (map (verb_to_api lower) l).
  Proof. induction l as [|g l IH]; simpl; constructor; auto. apply verb_normal. Qed.

  Lemma to_webhook_converted c w : to_webhook c = Some w -> converted c w.
  Proof.
    unfold WebhookModel.to_webhook. destruct (match_policy lower c) as [mp|] eqn:Em; [|discriminate]. destruct (client_config c) as [cc|] eqn:Ec; [|discriminate].
    intros [= <-]. unfold WebhookSpec.converted. simpl. split; [reflexivity|]. split; [reflexivity|]. split.
    { eexists. split; [reflexivity|]. simpl. split; [reflexivity|]. split; [reflexivity|]. split; [apply groups_of|apply verbs_of]. }
    split; [apply failure_normal|]. split; [apply match_some, Em|]. split; [apply client_some, Ec|]. split; [apply side_optional|].
    split; [apply timeout_of_iff; reflexivity|]. destruct (h_mutating c); [apply reinvocation_optional|reflexivity].
  Qed.

  (** ** Versions *)
  Definition v1_only (c : hook) : bool := forallb (String.eqb "v1") (h_whversions c).
  Lemma dedup_v1 l : l <> [] -> (forall v, In v l -> v = "v1") -> dedup l = ["v1"].
  Proof.
    induction l as [|x l IH]; [congruence|]. intros _ H. simpl. assert (x = "v1") by (apply H; left; reflexivity). subst x.
    destruct (mem_str "v1" l) eqn:E.
    - apply IH; [intros ->; discriminate|intros; apply H; right; assumption].
    - destruct l as [|y l]; [reflexivity|]. apply mem_str_false in E. exfalso. apply E. left. apply H. right. left. reflexivity.
  Qed.
  Lemma versions_v1 ord c : is_order ord -> webhook_versions ord c = if v1_only c then Some ["v1"] else None.
  Proof.
    intros O. unfold webhook_versions, v1_only. destruct (h_whversions c) as [|x l] eqn:E; [reflexivity|].
    assert (Hb : forallb (fun v => mem_str v supported) (x :: l) = forallb (String.eqb "v1") (x :: l)).
    { generalize (x :: l) as m. induction m as [|y m IH]; cbn [forallb]; [reflexivity|]. rewrite IH. f_equal. unfold supported. cbn [mem_str existsb]. rewrite orb_false_r. apply String.eqb_sym || reflexivity. }
    rewrite Hb. destruct (forallb (String.eqb "v1") (x :: l)) eqn:F; [|reflexivity]. f_equal.
    rewrite dedup_v1; [|discriminate|].
    - apply Permutation_length_1_inv. apply Permutation_sym, O.
    - intros v Hv. rewrite forallb_forall in F. specialize (F v Hv). apply String.eqb_eq in F. auto.
  Qed.

  (** ** Reading *)
  Definition as_map (l : list webhook) : vmap := match l with [] => [] | _ => [("v1", l)] end.
  Lemma mapp_as_map l w : mapp String.eqb (as_map l) "v1" w = as_map (l ++ [w]).
  Proof. destruct l; reflexivity. Qed.
  Lemma mget_as_map l : mget String.eqb (as_map l) "v1" = match l with [] => None | _ => Some l end.
  Proof. destruct l; reflexivity. Qed.

  Definition conv (c : hook) : option webhook := if v1_only c then to_webhook c else None.
  Fixpoint conv_all (cs : list hook) : option (list webhook) :=
    match cs with
    | [] => Some []
    | c :: cs' => match conv c with None => None | Some w => match conv_all cs' with None => None | Some ws => Some (w :: ws) end end
    end.
  Lemma conv_all_app a b : conv_all (a ++ b) = match conv_all a with None => None | Some x => match conv_all b with None => None | Some y => Some (x ++ y) end end.
  Proof. induction a as [|c a IH]; simpl; [destruct (conv_all b); reflexivity|]. destruct (conv c); [|reflexivity]. rewrite IH. destruct (conv_all a); [|reflexivity]. destruct (conv_all b); reflexivity. Qed.

  Lemma read_hooks_eq ord hooks : is_order ord -> forall a b, read_hooks lower ord hooks (as_map a, as_map b) =
    match conv_all (filter (of_kind true) hooks), conv_all (filter (of_kind false) hooks) with
    | Some x, Some y => Some (as_map (a ++ x), as_map (b ++ y))
    | _, _ => None
    end.
  Proof.
    intros O. induction hooks as [|c hooks IH]; intros a b; cbn [read_hooks filter]; [simpl; rewrite !app_nil_r; reflexivity|].
    rewrite (versions_v1 ord c O). unfold of_kind. destruct (h_mutating c) eqn:Em; simpl; unfold conv.
    - destruct (v1_only c); [|reflexivity]. destruct (to_webhook c) as [w|]; [|reflexivity]. unfold add_versions. simpl. rewrite mapp_as_map, IH.
      fold (of_kind true). fold (of_kind false). change (fun c0 : hook => Bool.eqb (h_mutating c0) true) with (of_kind true). change (fun c0 : hook => Bool.eqb (h_mutating c0) false) with (of_kind false).
      destruct (conv_all (filter (of_kind true) hooks)) as [x|]; [|reflexivity]. rewrite <- app_assoc. reflexivity.
    - change (fun c0 : hook => Bool.eqb (h_mutating c0) true) with (of_kind true). change (fun c0 : hook => Bool.eqb (h_mutating c0) false) with (of_kind false).
      destruct (v1_only c); [|destruct (conv_all (filter (of_kind true) hooks)); reflexivity]. destruct (to_webhook c) as [w|]; [|destruct (conv_all (filter (of_kind true) hooks)); reflexivity].
      unfold add_versions. simpl. rewrite mapp_as_map, IH.
      destruct (conv_all (filter (of_kind true) hooks)) as [x|]; [|reflexivity]. destruct (conv_all (filter (of_kind false) hooks)) as [y|]; [|reflexivity]. rewrite <- app_assoc. reflexivity.
  Qed.

  (** Configurations *)
  Definition cfgs_of (m : bool) (cfgs : list whconfig) : list whconfig := filter (fun c => Bool.eqb (wc_mutating c) m) cfgs.
  Definition last_of (cfgs : list whconfig) (d : option string) : option string := last (map (fun c => Some (wc_name c)) cfgs) d.
  Definition room (has : bool) (cfgs : list whconfig) : Prop := List.length cfgs <= (if has then 0 else 1).
  Lemma last_cons (A : Type) (x : A) l d : last (x :: l) d = last l x.
  Proof. revert x d. induction l as [|y l IH]; intros x d; [reflexivity|]. change (last (x :: y :: l) d) with (last (y :: l) d). rewrite !IH. reflexivity. Qed.
  Lemma read_configs_eq cfgs : forall hm hv sm sv, match read_configs cfgs (hm, hv) (sm, sv) with
    | Some st => st = (last_of (cfgs_of true cfgs) sm, last_of (cfgs_of false cfgs) sv) /\ room hm (cfgs_of true cfgs) /\ room hv (cfgs_of false cfgs)
    | None => ~ room hm (cfgs_of true cfgs) \/ ~ room hv (cfgs_of false cfgs)
    end.
  Proof.
    induction cfgs as [|c cfgs IH]; intros hm hv sm sv; simpl.
    - unfold last_of, room. simpl. repeat split; destruct hm, hv; lia.
    - destruct (wc_mutating c) eqn:E; simpl.
      + destruct hm; [left; unfold room; simpl; lia|]. specialize (IH true hv (Some (wc_name c)) sv). destruct (read_configs cfgs (true, hv) (Some (wc_name c), sv)) as [st|].
        * destruct IH as (-> & H1 & H2). unfold last_of, room in *. cbn [map]. rewrite last_cons. repeat split; simpl in *; try assumption; lia.
        * destruct IH as [H|H]; [left; unfold room in *; simpl in *; lia|right; exact H].
      + destruct hv; [right; unfold room; simpl; lia|]. specialize (IH hm true sm (Some (wc_name c))). destruct (read_configs cfgs (hm, true) (sm, Some (wc_name c))) as [st|].
        * destruct IH as (-> & H1 & H2). unfold last_of, room in *. cbn [map]. rewrite last_cons. repeat split; simpl in *; try assumption; lia.
        * destruct IH as [H|H]; [left; exact H|right; unfold room in *; simpl in *; lia].
  Qed.

  Definition hooks_of (m : bool) (roots : list root) : list hook := flat_map (fun r => filter (of_kind m) (sort_hooks (snd r))) roots.
  Definition cfgs_all (m : bool) (roots : list root) : list whconfig := cfgs_of m (flat_map fst roots).
  Definition single (roots : list root) : Prop := forall r m, In r roots -> List.length (cfgs_of m (fst r)) <= 1.
  Lemma last_of_app a b d : last_of (a ++ b) d = last_of b (last_of a d).
  Proof.
    unfold last_of. rewrite map_app. generalize (map (fun c => Some (wc_name c)) a) as x. generalize (map (fun c => Some (wc_name c)) b) as y. intros y x.
    revert d. induction x as [|z x IH]; intros d; [reflexivity|]. cbn [app]. rewrite !last_cons. apply IH.
  Qed.
  Lemma read_roots_eq ord roots : is_order ord -> forall sm sv a b, match read_roots lower ord roots ((sm, sv), (as_map a, as_map b)) with
    | Some st => exists x y, conv_all (hooks_of true roots) = Some x /\ conv_all (hooks_of false roots) = Some y /\ single roots /\
        st = ((last_of (cfgs_all true roots) sm, last_of (cfgs_all false roots) sv), (as_map (a ++ x), as_map (b ++ y)))
    | None => ~ single roots \/ conv_all (hooks_of true roots) = None \/ conv_all (hooks_of false roots) = None
    end.
  Proof.
    intros O. induction roots as [|[cfgs hooks] roots IH]; intros sm sv a b; cbn [read_roots].
    - exists [], []. simpl. rewrite !app_nil_r. repeat split; auto. intros r m [].
    - cbn [fst snd]. pose proof (read_configs_eq cfgs false false sm sv) as Hc. destruct (read_configs cfgs (false, false) (sm, sv)) as [names|].
      2:{ left. intros H. assert (H0 : forall m, room false (cfgs_of m cfgs)) by (intros m; apply (H (cfgs, hooks) m); left; reflexivity). destruct Hc as [Hc|Hc]; apply Hc, H0. }
      destruct Hc as (-> & R1 & R2). rewrite (read_hooks_eq ord _ O). unfold hooks_of. cbn [flat_map snd]. rewrite !conv_all_app.
      destruct (conv_all (filter (of_kind true) (sort_hooks hooks))) as [x|]; [|right; left; reflexivity].
      destruct (conv_all (filter (of_kind false) (sort_hooks hooks))) as [y|]; [|right; right; reflexivity].
      specialize (IH (last_of (cfgs_of true cfgs) sm) (last_of (cfgs_of false cfgs) sv) (a ++ x) (b ++ y)).
      destruct (read_roots lower ord roots _) as [st|].
      + destruct IH as (x' & y' & H1 & H2 & H3 & ->). exists (x ++ x'), (y ++ y'). unfold hooks_of in H1, H2. rewrite H1, H2. split; [reflexivity|]. split; [reflexivity|]. split.
        * intros r m [<-|Hr]; [destruct m; assumption|apply H3, Hr].
        * unfold cfgs_all, cfgs_of. cbn [flat_map fst]. rewrite !filter_app, !last_of_app, <- !app_assoc. reflexivity.
      + destruct IH as [H|[H|H]].
        * left. intros G. apply H. intros r m Hr. apply G. right. exact Hr.
        * right. left. unfold hooks_of in H. rewrite H. reflexivity.
        * right. right. unfold hooks_of in H. rewrite H. reflexivity.
  Qed.

  (** ** Checks *)
  Lemma hook_ok_iff w : optional lower ["None"; "NoneOnDryRun"; "Some"] (lower "") (w_side w) \/ True -> (hook_ok w = true <-> (match w_side w with Some s => s <> "Unknown" /\ s <> "Some" | None => False end) /\ (forall t, w_timeout w = Some t -> 1 <= t <= 30)%Z /\ w_reviews w <> []).
  Proof.
    intros _. unfold hook_ok, side_ok, timeout_ok. rewrite !andb_true_iff. destruct (w_side w) as [s|]; [|split; [intros ((H & _) & _); discriminate|intros (F & _); destruct F]].
    rewrite negb_true_iff, orb_false_iff, !String.eqb_neq. split.
    - intros [[H1 H2] H3]. split; [exact H1|]. split.
      + intros t Ht. rewrite Ht in H2. apply negb_true_iff, orb_false_iff in H2 as [H2 H4]. lia.
      + intros E. rewrite E in H3. discriminate.
    - intros (H1 & H2 & H3). split; [split; [exact H1|]|].
      + destruct (w_timeout w) as [t|]; [|reflexivity]. specialize (H2 t eq_refl). apply negb_true_iff, orb_false_iff. lia.
      + destruct (w_reviews w); [congruence|reflexivity].
  Qed.
  Lemma side_values c s : side_effects lower c = Some s -> s = "None" \/ s = "NoneOnDryRun" \/ s = "Some".
  Proof. unfold side_effects. destruct (same_word lower (h_side c) "None"); [intros [= <-]; auto|]. destruct (same_word lower (h_side c) "NoneOnDryRun"); [intros [= <-]; auto|]. destruct (same_word lower (h_side c) "Some"); [intros [= <-]; auto|discriminate]. Qed.
  Lemma side_good c : (match side_effects lower c with Some s => s <> "Unknown" /\ s <> "Some" | None => False end) <-> exists k, spells lower ["None"; "NoneOnDryRun"] (h_side c) k.
  Proof.
    unfold side_effects, spells. destruct (same_word lower (h_side c) "None") eqn:E1; [words; split; [intros _; exists "None"; simpl; auto|intros _; split; discriminate]|].
    destruct (same_word lower (h_side c) "NoneOnDryRun") eqn:E2; [words; split; [intros _; exists "NoneOnDryRun"; simpl; auto|intros _; split; discriminate]|].
    words. destruct (same_word lower (h_side c) "Some"); (split; [intros H; try tauto; exfalso; apply (proj2 H); reflexivity|]); intros (k & [<-|[<-|[]]] & H); contradiction.
  Qed.
  Lemma side_good_val c : (exists k, spells lower ["None"; "NoneOnDryRun"] (h_side c) k) -> side_effects lower c = Some "None" \/ side_effects lower c = Some "NoneOnDryRun".
  Proof.
    intros H. apply side_good in H. destruct (side_effects lower c) as [s|] eqn:E; [|destruct H]. destruct (side_values c s E) as [-> | [-> | ->]]; auto. destruct H as [_ H]. congruence.
  Qed.
  (** An acceptable marker is one that is converted to a webhook passing the checks. *)
  Lemma acceptable_iff c : acceptable c <-> exists w, conv c = Some w /\ hook_ok w = true.
  Proof.
    unfold WebhookSpec.acceptable, conv. split.
    - intros (H1 & H2 & H3 & H4 & H5 & H6). assert (Ev : v1_only c = true) by (apply forallb_forall; intros v Hv; apply String.eqb_eq; symmetry; auto). rewrite Ev.
      unfold WebhookModel.to_webhook. destruct (match_policy lower c) as [mp|] eqn:Em; [|apply match_none in Em; contradiction].
      destruct (client_config c) as [cc|] eqn:Ec; [|apply client_none in Ec; contradiction]. eexists. split; [reflexivity|].
      apply hook_ok_iff; [auto|]. simpl. split; [apply side_good, H4|]. split; [|exact H6]. intros t Ht. apply H5. apply timeout_of_iff. congruence.
    - intros (w & Hw & Hk). destruct (v1_only c) eqn:Ev; [|discriminate]. unfold WebhookModel.to_webhook in Hw.
      destruct (match_policy lower c) as [mp|] eqn:Em; [|discriminate]. destruct (client_config c) as [cc|] eqn:Ec; [|discriminate]. injection Hw as <-.
      apply hook_ok_iff in Hk; [|auto]. simpl in Hk. destruct Hk as (K1 & K2 & K3). split; [|split; [|split; [|split; [|split]]]].
      + intros v Hv. unfold v1_only in Ev. rewrite forallb_forall in Ev. specialize (Ev v Hv). apply String.eqb_eq in Ev. auto.
      + pose proof (match_some c mp Em) as M. destruct mp as [k|]; [left; exists k; exact M|right; exact M].
      + pose proof (client_some c cc Ec) as M. destruct cc; simpl in M; [destruct M as (A & B & C & _); right; split; [congruence|exact A]|destruct M as (A & B & C); left; split; [exact A|congruence]].
      + apply side_good, K1.
      + intros t Ht. apply K2. apply timeout_of_iff in Ht. auto.
      + exact K3.
  Qed.

  Lemma conv_all_some cs ws : conv_all cs = Some ws -> Forall2 (fun c w => conv c = Some w) cs ws.
  Proof. revert ws. induction cs as [|c cs IH]; intros ws; simpl; [intros [= <-]; constructor|]. destruct (conv c) eqn:E; [|discriminate]. destruct (conv_all cs); [|discriminate]. intros [= <-]. constructor; auto. Qed.
  Lemma conv_all_none cs : conv_all cs = None -> exists c, In c cs /\ conv c = None.
  Proof. induction cs as [|c cs IH]; simpl; [discriminate|]. destruct (conv c) eqn:E; [|intros _; exists c; auto]. destruct (conv_all cs); [discriminate|]. intros H. destruct (IH H) as (c' & H1 & H2). exists c'. auto. Qed.
  Lemma conv_converted c w : conv c = Some w -> converted c w.
  Proof. unfold conv. destruct (v1_only c); [apply to_webhook_converted|discriminate]. Qed.

  Definition obj (m : bool) (name : option string) (ws : list webhook) : list object :=
    match ws with [] => [] | _ => [mkObject (kind_name m) (match name with Some n => if String.eqb n "" then (if m then "mutating-webhook-configuration" else "validating-webhook-configuration") else n
                                                       | None => if m then "mutating-webhook-configuration" else "validating-webhook-configuration" end) ws] end.
  Lemma generate_eq ord roots : is_order ord -> match generate lower ord roots with
    | Some files => exists x y, conv_all (hooks_of true roots) = Some x /\ conv_all (hooks_of false roots) = Some y /\ single roots /\
        forallb hook_ok x = true /\ forallb hook_ok y = true /\
        files = match obj true (last_of (cfgs_all true roots) None) x ++ obj false (last_of (cfgs_all false roots) None) y with [] => [] | objs => [("manifests.yaml", objs)] end
    | None => ~ single roots \/ exists m, match conv_all (hooks_of m roots) with None => True | Some x => forallb hook_ok x = false end
    end.
  Proof.
    intros O. unfold generate. pose proof (read_roots_eq ord roots O None None [] []) as H. simpl as_map in H. destruct (read_roots lower ord roots _) as [[names maps]|].
    2:{ destruct H as [H|[H|H]]; [left; exact H|right; exists true; rewrite H; exact I|right; exists false; rewrite H; exact I]. }
    destruct H as (x & y & H1 & H2 & H3 & E). injection E as -> ->. simpl app. unfold supported. cbn [make_files fst snd]. unfold make_object. rewrite !mget_as_map.
    assert (Cx : match match x with [] => None | _ => Some x end with None => Some [] | Some ws => if forallb hook_ok ws then
        Some [mkObject "MutatingWebhookConfiguration" (match last_of (cfgs_all true roots) None with Some n => if String.eqb n "" then "mutating-webhook-configuration" else n | None => "mutating-webhook-configuration" end) ws] else None end
      = if forallb hook_ok x then Some (obj true (last_of (cfgs_all true roots) None) x) else None) by (destruct x; reflexivity).
    assert (Cy : match match y with [] => None | _ => Some y end with None => Some [] | Some ws => if forallb hook_ok ws then
        Some [mkObject "ValidatingWebhookConfiguration" (match last_of (cfgs_all false roots) None with Some n => if String.eqb n "" then "validating-webhook-configuration" else n | None => "validating-webhook-configuration" end) ws] else None end
      = if forallb hook_ok y then Some (obj false (last_of (cfgs_all false roots) None) y) else None) by (destruct y; reflexivity).
    rewrite Cx, Cy. clear Cx Cy. destruct (forallb hook_ok x) eqn:Fx; [|right; exists true; rewrite H1; exact Fx]. destruct (forallb hook_ok y) eqn:Fy; [|right; exists false; rewrite H2; exact Fy].
    exists x, y. repeat (split; [assumption|]). reflexivity.
  Qed.

  Lemma hooks_in m roots c : In c (hooks_of m roots) <-> exists r, In r roots /\ In c (snd r) /\ h_mutating c = m.
  Proof.
    unfold hooks_of. rewrite in_flat_map. split.
    - intros (r & Hr & Hc). apply filter_In in Hc as [Hc Hk]. exists r. split; [exact Hr|]. split; [exact (proj1 (sort_by_in _ _ c (snd r)) Hc)|]. apply eqb_prop in Hk. exact Hk.
    - intros (r & Hr & Hc & Hk). exists r. split; [exact Hr|]. apply filter_In. split; [exact (proj2 (sort_by_in _ _ c (snd r)) Hc)|]. unfold of_kind. rewrite Hk. apply eqb_reflx.
  Qed.

  Lemma generate_none ord roots : is_order ord -> (generate lower ord roots = None <->
    (exists r m, In r roots /\ 2 <= List.length (filter (fun c => Bool.eqb (wc_mutating c) m) (fst r))) \/ (exists r c, In r roots /\ In c (snd r) /\ ~ acceptable c)).
  Proof.
    intros O. pose proof (generate_eq ord roots O) as H. destruct (generate lower ord roots) as [files|].
    - destruct H as (x & y & H1 & H2 & H3 & H4 & H5 & _). split; [discriminate|]. intros [(r & m & Hr & Hl)|(r & c & Hr & Hc & Ha)]; exfalso.
      + specialize (H3 r m Hr). unfold cfgs_of in H3. lia.
      + apply Ha, acceptable_iff.
        assert (G : forall m ws, conv_all (hooks_of m roots) = Some ws -> forallb hook_ok ws = true -> h_mutating c = m -> exists w, conv c = Some w /\ hook_ok w = true).
        { intros m ws Hw Hf Hm. apply conv_all_some in Hw. assert (Hin : In c (hooks_of m roots)) by (apply hooks_in; eauto).
          rewrite forallb_forall in Hf. clear -Hw Hf Hin. induction Hw as [|c' w cs ws Hcw Hw IH]; [destruct Hin|].
          destruct Hin as [->|Hin]; [exists w; split; [exact Hcw|apply Hf; left; reflexivity]|]. apply IH; [intros; apply Hf; right; assumption|exact Hin]. }
        destruct (h_mutating c) eqn:Em; [apply (G true x)|apply (G false y)]; auto.
    - split; [intros _|reflexivity]. destruct H as [H|(m & H)].
      + left. assert (D : single roots \/ exists r m, In r roots /\ 2 <= List.length (cfgs_of m (fst r))).
        { clear. induction roots as [|r roots IH]; [left; intros r m []|].
          destruct (Compare_dec.le_lt_dec (List.length (cfgs_of true (fst r))) 1); [|right; exists r, true; split; [left; reflexivity|lia]].
          destruct (Compare_dec.le_lt_dec (List.length (cfgs_of false (fst r))) 1); [|right; exists r, false; split; [left; reflexivity|lia]].
          destruct IH as [IH|(r' & m & Hr & Hl)]; [left; intros r' m [<-|Hr]; [destruct m; assumption|apply IH, Hr]|right; exists r', m; split; [right; exact Hr|exact Hl]]. }
        destruct D as [D|D]; [contradiction|exact D].
      + right. assert (Hx : exists c, In c (hooks_of m roots) /\ ~ exists w, conv c = Some w /\ hook_ok w = true).
        { destruct (conv_all (hooks_of m roots)) as [ws|] eqn:E.
          - apply conv_all_some in E. clear -H E. induction E as [|c w cs ws Hc E IH]; [discriminate|]. simpl in H. destruct (hook_ok w) eqn:Ew.
            + destruct (IH H) as (c' & H1 & H2). exists c'. split; [right; exact H1|exact H2].
            + exists c. split; [left; reflexivity|]. intros (w' & G1 & G2). congruence.
          - apply conv_all_none in E as (c & H1 & H2). exists c. split; [exact H1|]. intros (w & G & _). congruence. }
        destruct Hx as (c & H1 & H2). apply hooks_in in H1 as (r & Hr & Hc & _). exists r, c. split; [exact Hr|]. split; [exact Hc|]. rewrite acceptable_iff. exact H2.
  Qed.

  Lemma sort_hooks_sorted l : StronglySorted by_name (sort_hooks l).
  Proof.
    pose proof (sort_by_sorted hook (fun a b => str_ltb (h_name a) (h_name b))
      (fun x y z => str_ltb_trans (h_name x) (h_name y) (h_name z)) (fun x => str_ltb_irrefl (h_name x)) (fun x y z => str_ltb_negtrans (h_name x) (h_name y) (h_name z)) l) as H.
    fold (sort_hooks l) in H. induction H as [|a m H IH F]; constructor; auto. eapply Forall_impl; [|exact F]. intros b Hb. unfold le_of in Hb. unfold by_name, str_leb. rewrite Hb. reflexivity.
  Qed.
  Lemma parts m roots ws : conv_all (hooks_of m roots) = Some ws -> collected lower m roots ws.
  Proof.
    revert ws. induction roots as [|r roots IH]; intros ws; [simpl; intros [= <-]; exists []; split; [constructor|reflexivity]|]. unfold hooks_of. cbn [flat_map]. rewrite conv_all_app.
    destruct (conv_all (filter (of_kind m) (sort_hooks (snd r)))) as [x|] eqn:Ex; [|discriminate]. fold (hooks_of m roots).
    destruct (conv_all (hooks_of m roots)) as [y|]; [|discriminate]. intros [= <-]. destruct (IH y eq_refl) as (ps & H1 & ->). exists (x :: ps). split; [|reflexivity]. constructor; [|exact H1].
    exists (filter (of_kind m) (sort_hooks (snd r))). split; [apply perm_filter, sort_by_perm|]. split; [apply sorted_filter, sort_hooks_sorted|]. split.
    - intros n. rewrite !(filter_comm _ (named n)). f_equal. apply sort_stable. intros a b Ha Hb. apply String.eqb_eq in Ha, Hb. rewrite Ha, Hb. apply str_ltb_irrefl.
    - apply conv_all_some in Ex. clear -Ex. induction Ex as [|c w cs ws Hw Ex IH]; constructor; [apply conv_converted, Hw|exact IH].
  Qed.

  Lemma last_of_none l : match last_of l None with Some n => n | None => "" end = last (map wc_name l) "".
  Proof.
    unfold last_of. induction l as [|c l IH]; [reflexivity|]. cbn [map]. rewrite !last_cons. clear IH. revert c. induction l as [|d l IH]; intros c; [reflexivity|]. cbn [map]. rewrite !last_cons. apply IH.
  Qed.
  Lemma obj_name m roots ws : obj m (last_of (cfgs_all m roots) None) ws = match ws with [] => [] | _ => [mkObject (kind_name m) (object_name m roots) ws] end.
  Proof.
    unfold obj, object_name. destruct ws; [reflexivity|]. do 2 f_equal. rewrite <- (last_of_none (filter (fun c => Bool.eqb (wc_mutating c) m) (flat_map fst roots))).
    unfold cfgs_all, cfgs_of. destruct (last_of _ None); [reflexivity|]. reflexivity.
  Qed.

  Lemma generate_some ord roots files : is_order ord -> generate lower ord roots = Some files ->
    exists muts vals, collected lower true roots muts /\ collected lower false roots vals /\ Forall v1_ok (muts ++ vals) /\
      files = match (match muts with [] => [] | _ => [mkObject "MutatingWebhookConfiguration" (object_name true roots) muts] end) ++
                    (match vals with [] => [] | _ => [mkObject "ValidatingWebhookConfiguration" (object_name false roots) vals] end)
              with [] => [] | objs => [("manifests.yaml", objs)] end.
  Proof.
    intros O H. pose proof (generate_eq ord roots O) as G. rewrite H in G. destruct G as (x & y & H1 & H2 & H3 & H4 & H5 & ->). exists x, y.
    split; [apply parts, H1|]. split; [apply parts, H2|]. split.
    - assert (K : forall cs ws, conv_all cs = Some ws -> forallb hook_ok ws = true -> Forall v1_ok ws).
      { intros cs ws Hc Hf. apply conv_all_some in Hc. rewrite forallb_forall in Hf. induction Hc as [|c w cs ws Hc Hr IH]; constructor; [|apply IH; intros; apply Hf; right; assumption].
        assert (Ha : acceptable c) by (apply acceptable_iff; exists w; split; [exact Hc|apply Hf; left; reflexivity]).
        assert (Hk : hook_ok w = true) by (apply Hf; left; reflexivity). apply hook_ok_iff in Hk; [|auto]. destruct Hk as (K1 & K2 & K3). split; [|split; assumption].
        destruct Ha as (_ & _ & _ & A & _). apply side_good_val in A. assert (w_side w = side_effects lower c).
        { unfold conv in Hc. destruct (v1_only c); [|discriminate]. unfold WebhookModel.to_webhook in Hc. destruct (match_policy lower c); [|discriminate]. destruct (client_config c); [|discriminate]. injection Hc as <-. reflexivity. }
        rewrite H0. exact A. }
      apply Forall_app. split; [exact (K _ _ H1 H4)|exact (K _ _ H2 H5)].
    - rewrite !obj_name. reflexivity.
  Qed.

  (** ** Matching *)
  Lemma rules_match (res_matches : string -> string -> bool) c group version resource op :
    NoDup (map lower ["CREATE"; "UPDATE"; "DELETE"; "CONNECT"; "*"]) -> In op operations ->
    (exists r, In r (rules lower c) /\ rule_matches res_matches r group version resource op) <-> marker_matches lower res_matches c group version resource op.
  Proof.
    intros N Hop. unfold rules. split.
    - intros (r & [<-|[]] & (g & G1 & G2) & V & P & (o & O1 & O2)). simpl in *. apply in_map_iff in G1 as (g0 & G0 & G1). apply in_map_iff in O1 as (v & O0 & O1).
      split; [|split; [exact V|split; [exact P|]]].
      + exists g0. split; [exact G1|]. destruct (String.eqb_spec g0 "core") as [Hg|Hg]; subst g; [destruct G2 as [G2|G2]; [discriminate|auto]|]. destruct G2 as [G2|G2]; auto.
      + exists v. split; [exact O1|]. pose proof (verb_normal v) as Hn. rewrite O0 in Hn. destruct Hn as [[_ Hn]|[_ Hn]]; (destruct O2 as [O2|O2]; [left|right]); congruence.
    - intros ((g & G1 & G2) & V & P & (v & O1 & O2)). eexists. split; [left; reflexivity|]. unfold rule_matches. simpl. split; [|split; [exact V|split; [exact P|]]].
      + exists (if String.eqb g "core" then "" else g). split; [apply in_map_iff; exists g; auto|]. destruct (String.eqb_spec g "core") as [->|Hg].
        * destruct G2 as [G2|[[_ ->]|[G2 _]]]; [discriminate|auto|contradiction].
        * destruct G2 as [->|[[G2 _]|[_ ->]]]; auto; contradiction.
      + exists (verb_to_api lower v). split; [apply in_map; exact O1|]. simpl in N.
        assert (Hk : forall k, In k ["CREATE"; "UPDATE"; "DELETE"; "CONNECT"; "*"] -> lower v = lower k -> verb_to_api lower v = k).
        { intros k Hk E. pose proof (verb_normal v) as Hn. destruct Hn as [[H1 H2]|[H1 _]]; [|destruct (H1 k Hk E)].
          assert (Inj : forall a b, In a ["CREATE"; "UPDATE"; "DELETE"; "CONNECT"; "*"] -> In b ["CREATE"; "UPDATE"; "DELETE"; "CONNECT"; "*"] -> lower a = lower b -> a = b).
          { intros a b Ha Hb Eab. revert Ha Hb N Eab. clear. simpl. intros Ha Hb N Eab. 
            repeat match goal with H : NoDup (_ :: _) |- _ => inversion H; clear H; subst end. simpl in *.
            destruct Ha as [<-|[<-|[<-|[<-|[<-|[]]]]]]; destruct Hb as [<-|[<-|[<-|[<-|[<-|[]]]]]]; try reflexivity; exfalso; rewrite Eab in *; tauto. }
          apply Inj; [exact H1|exact Hk|congruence]. }
        destruct O2 as [O2|O2]; [left; apply Hk; [simpl; auto 8|exact O2]|right; apply Hk; [|exact O2]]. unfold operations in Hop. simpl in *. tauto.
  Qed.
End Proofs.

Section Matching.
  Variable lower : string -> string.
  Hypothesis distinct : NoDup (map lower ["CREATE"; "UPDATE"; "DELETE"; "CONNECT"; "*"]).

  Lemma table_inj a b : In a ["CREATE"; "UPDATE"; "DELETE"; "CONNECT"; "*"] -> In b ["CREATE"; "UPDATE"; "DELETE"; "CONNECT"; "*"] -> lower a = lower b -> a = b.
  Proof.
    intros Ha Hb E. pose proof distinct as N. simpl in *. repeat match goal with H : NoDup (_ :: _) |- _ => inversion H; clear H; subst end. simpl in *.
    destruct Ha as [<-|[<-|[<-|[<-|[<-|[]]]]]]; destruct Hb as [<-|[<-|[<-|[<-|[<-|[]]]]]]; try reflexivity; exfalso; rewrite E in *; tauto.
  Qed.
  Lemma normal_fun v o : normal lower ["CREATE"; "UPDATE"; "DELETE"; "CONNECT"; "*"] v o -> o = verb_to_api lower v.
  Proof.
    intros H. pose proof (verb_normal lower v) as G. destruct H as [[H1 H2]|[H1 H2]]; destruct G as [[G1 G2]|[G1 G2]].
    - apply table_inj; congruence.
    - destruct (G1 o H1 H2).
    - destruct (H1 _ G1 G2).
    - congruence.
  Qed.
  Lemma converted_match (res_matches : string -> string -> bool) c w group version resource op :
    converted lower c w -> In op operations ->
    (exists r, In r (w_rules w) /\ rule_matches res_matches r group version resource op) <-> marker_matches lower res_matches c group version resource op.
  Proof.
    intros (_ & _ & (r & E & E1 & E2 & E3 & E4) & _) Hop. rewrite <- (rules_match lower res_matches c group version resource op distinct Hop).
    assert (Er : rules lower c = [r]).
    { unfold rules. destruct r as [gs vs rs ops]. simpl in *. subst vs rs. do 2 f_equal.
      - clear -E3. induction E3 as [|g g' l l' H E3 IH]; simpl; [reflexivity|]. rewrite IH. f_equal. destruct H as [[-> ->]|[H ->]]; [reflexivity|]. destruct (String.eqb_spec g "core"); [contradiction|reflexivity].
      - clear -E4 distinct. induction E4 as [|g g' l l' H E3 IH]; simpl; [reflexivity|]. rewrite IH. f_equal. symmetry. apply normal_fun, H. }
    rewrite Er, E. tauto.
  Qed.
End Matching.

Section Order.
  Variable lower : string -> string.
  Lemma generate_order ord ord' roots : is_order ord -> is_order ord' -> generate lower ord roots = generate lower ord' roots.
  Proof.
    intros O O'. pose proof (generate_eq lower ord roots O) as H. pose proof (generate_eq lower ord' roots O') as H'.
    destruct (generate lower ord roots) as [f|] eqn:E; destruct (generate lower ord' roots) as [f'|] eqn:E'.
    - destruct H as (x & y & H1 & H2 & _ & _ & _ & ->). destruct H' as (x' & y' & H1' & H2' & _ & _ & _ & ->). rewrite H1 in H1'. rewrite H2 in H2'. injection H1' as <-. injection H2' as <-. reflexivity.
    - apply (generate_none lower ord' roots O') in E'. apply (generate_none lower ord roots O) in E'. congruence.
    - apply (generate_none lower ord roots O) in E. apply (generate_none lower ord' roots O') in E. congruence.
    - reflexivity.
  Qed.
  Lemma timeout_small c w : converted lower c w -> (-2147483648 <= h_timeout c < 2147483648)%Z -> w_timeout w = if Z.eqb (h_timeout c) 0 then None else Some (h_timeout c).
  Proof.
    intros (_ & _ & _ & _ & _ & _ & _ & H & _) R. unfold timeout_of in H. destruct (w_timeout w) as [t|].
    - destruct H as (H1 & H2 & k & H3). destruct (Z.eqb_spec (h_timeout c) 0); [contradiction|]. f_equal. nia.
    - rewrite H. reflexivity.
  Qed.
End Order.
