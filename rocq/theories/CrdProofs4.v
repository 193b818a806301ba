(** * Proofs about the CRD generator. *)
From Coq Require Import List String Ascii Bool ZArith Permutation Sorted Lia.
From Verif Require Import GoLib GoLibFacts MapFacts SchemaModel CrdModel CrdSpec CrdProofs.
Import ListNotations.
Open Scope nat_scope.
Open Scope string_scope.
Open Scope list_scope.

(** ** The CRD that is written *)
Lemma mset_key_map {V} (m : list (string * V)) k v w : mget String.eqb m k = Some w -> map fst (mset String.eqb m k v) = map fst m.
Proof.
  induction m as [|[a b] m IH]; [discriminate|]. cbn. destruct (String.eqb_spec k a) as [->|N]; cbn; [reflexivity|]. intros H. rewrite IH by exact H. reflexivity.
Qed.
Lemma set_props_same s p p' : set_props (set_props s p) p' = set_props s p'.
Proof. reflexivity. Qed.
Lemma meta_spec v : let w := match mget String.eqb (s_props (v_schema v)) "metadata" with
      | Some _ => set_vschema v (set_props (v_schema v) (mset String.eqb (s_props (v_schema v)) "metadata" (set_type schema0 "object"))) | None => v end in
  let w' := match mget String.eqb (s_props (v_schema w)) "metadata" with
      | Some m => set_vschema w (set_props (v_schema w) (mset String.eqb (s_props (v_schema w)) "metadata" (set_desc m ""))) | None => w end in
  w' = set_vschema v (v_schema w') /\ v_schema w' = set_props (v_schema v) (s_props (v_schema w')) /\ map fst (s_props (v_schema w')) = map fst (s_props (v_schema v)) /\
  forall k, mget String.eqb (s_props (v_schema w')) k = match mget String.eqb (s_props (v_schema v)) k with Some s => Some (if String.eqb k "metadata" then set_type schema0 "object" else s) | None => None end.
Proof.
  destruct (mget String.eqb (s_props (v_schema v)) "metadata") as [m|] eqn:E; cbv zeta.
  - cbn [v_schema set_vschema s_props set_props]. rewrite (mget_mset_eq _ _ _ String.eqb_eq). cbn [v_schema set_vschema s_props set_props]. split; [reflexivity|]. split; [reflexivity|]. split.
    + erewrite mset_key_map by (apply (mget_mset_eq _ _ _ String.eqb_eq)). eapply mset_key_map. exact E.
    + intros k. destruct (String.eqb_spec k "metadata") as [->|N].
      * rewrite (mget_mset_eq _ _ _ String.eqb_eq), E. reflexivity.
      * rewrite !(mget_mset_ne _ _ _ String.eqb_eq) by exact N. destruct (mget String.eqb (s_props (v_schema v)) k); reflexivity.
  - rewrite E. split; [destruct v; reflexivity|]. split; [destruct v as [? ? ? ? ? s]; destruct s; reflexivity|]. split; [reflexivity|]. intros k. destruct (mget String.eqb (s_props (v_schema v)) k) eqn:K; [|reflexivity]. destruct (String.eqb_spec k "metadata") as [->|N]; [congruence|reflexivity].
Qed.
Lemma published_ok tv c : published tv c (remove_description (fix_metadata (add_attribution tv c))).
Proof.
  split; try reflexivity.
  - intros k. cbn. destruct (String.eqb_spec k "controller-gen.kubebuilder.io/version") as [->|N]; [apply (mget_mset_eq _ _ _ String.eqb_eq)|apply (mget_mset_ne _ _ _ String.eqb_eq), N].
  - unfold remove_description, fix_metadata, add_attribution. cbn [c_versions set_versions set_meta]. induction (c_versions c) as [|v vs IH]; [constructor|]. cbn [map]. constructor; [apply meta_spec|exact IH].
Qed.

Section Gen.
  Variable pluralize lower : string -> string.
  Variable gv_order : list (string * (string * string)) -> list (string * (string * string)).
  Variable m_order : cmarkers -> cmarkers.
  Variable v_sort : list version -> list version.
  Variable group_versions : list (string * (string * string)).
  Variable types : string * string -> option cmarkers.
  Variable schema_for : string * string -> schema.
  Variable tool_version : string.
  Notation need := (need_crd pluralize lower gv_order m_order v_sort group_versions types schema_for).
  Notation gen_kinds := (generate_kinds pluralize lower gv_order m_order v_sort group_versions types schema_for tool_version).
  Lemma all_v1 c vers : (forall v, In v vers -> v = "v1") -> all_versions c vers = Some (map (fun _ => c) vers).
  Proof. induction vers as [|v vers IH]; intros H; [reflexivity|]. cbn. rewrite (H v (or_introl eq_refl)). cbn. rewrite IH by (intros w Hw; apply H; right; exact Hw). reflexivity. Qed.
  Lemma not_v1 c vers : (exists v, In v vers /\ v <> "v1") -> all_versions c vers = None.
  Proof.
    induction vers as [|v vers IH]; intros (w & Hw & N); [destruct Hw|]. cbn. unfold as_version. destruct (String.eqb_spec v "v1") as [->|]; [|reflexivity]. rewrite IH; [reflexivity|]. exists w. split; [|exact N]. destruct Hw as [<-|Hw]; [contradiction|exact Hw].
  Qed.
  Lemma v1_dec (vers : list string) : (forall v, In v vers -> v = "v1") \/ exists v, In v vers /\ v <> "v1".
  Proof.
    induction vers as [|v vers IH]; [left; intros v []|]. destruct (string_dec v "v1") as [->|N]; [|right; exists v; split; [left; reflexivity|exact N]].
    destruct IH as [IH|(w & Hw & N)]; [left; intros w [<-|Hw]; auto|right; exists w; split; [right; exact Hw|exact N]].
  Qed.
  Lemma files_in c vers : forall i x f y, In (f, y) (files c i vers (map (fun _ => x) vers)) <-> exists j v, nth_error vers j = Some v /\ f = file_name c (i + j) v /\ y = remove_description x.
  Proof.
    induction vers as [|v vers IH]; intros i x f y; cbn [files map].
    - split; [intros []|]. intros (j & v & E & _). destruct j; discriminate E.
    - cbn [In]. rewrite IH. split.
      + intros [K|(j & w & E & -> & ->)]; [injection K as <- <-; exists 0, v; rewrite Nat.add_0_r; auto|]. exists (S j), w. split; [exact E|]. split; [|reflexivity]. f_equal. lia.
      + intros (j & w & E & -> & ->). destruct j as [|j]; [left; injection E as ->; rewrite Nat.add_0_r; reflexivity|]. right. exists j, w. split; [exact E|]. split; [|reflexivity]. f_equal. lia.
  Qed.
  Lemma files_length c vers : forall i x, List.length (files c i vers (map (fun _ => x) vers)) = List.length vers.
  Proof. induction vers as [|v vers IH]; intros i x; [reflexivity|]. cbn. rewrite IH. reflexivity. Qed.
  Definition got (gk : string * string) : crd := match need (fst gk) (snd gk) with CDone (Some c) _ => c | _ => zero_crd end.
  Lemma kinds_done vers kinds w failed es : kinds <> [] -> gen_kinds vers kinds = GDone w failed es ->
    (failed = true /\ w = [] /\ exists v, In v vers /\ v <> "v1") \/
    (failed = false /\ (forall v, In v vers -> v = "v1") /\ List.length w = List.length kinds * List.length vers /\
      (forall gk, In gk kinds -> need (fst gk) (snd gk) <> CPanic) /\
      (forall e, In e es <-> exists gk o es', In gk kinds /\ need (fst gk) (snd gk) = CDone o es' /\ In e es') /\
      forall f x, In (f, x) w <-> exists gk j v, In gk kinds /\ nth_error vers j = Some v /\ f = file_name (got gk) j v /\ x = remove_description (fix_metadata (add_attribution tool_version (got gk)))).
  Proof.
    intros NE H. destruct (v1_dec vers) as [A|A].
    - right. clear NE. revert w failed es H. induction kinds as [|[g k] kinds IH]; intros w failed es H.
      + injection H as <- <- <-. split; [reflexivity|]. split; [exact A|]. split; [reflexivity|]. split; [intros gk []|]. split; [|intros f x; split; [intros []|intros (gk & j & v & [] & _)]]. intros e. split; [intros []|intros (gk & o & es' & [] & _)].
      + cbn [generate_kinds] in H. destruct (need g k) as [o es1|] eqn:N; [|discriminate]. rewrite (all_v1 _ _ A) in H. destruct (gen_kinds vers kinds) as [w2 f2 es2|] eqn:G; [|discriminate]. injection H as <- <- <-.
        destruct (IH _ _ _ eq_refl) as (-> & _ & L & NP & E & W). split; [reflexivity|]. split; [exact A|]. split; [rewrite app_length, files_length, L; reflexivity|]. split; [intros gk [<-|K]; [cbn [fst snd]; congruence|apply NP, K]|]. split.
        * intros e. rewrite in_app_iff, E. split.
          -- intros [K|(gk & o' & es' & K1 & K)]; [exists (g, k), o, es1; split; [left; reflexivity|split; [exact N|exact K]]|exists gk, o', es'; split; [right; exact K1|exact K]].
          -- intros (gk & o' & es' & [<-|K1] & K2 & K3); [left; cbn [fst snd] in K2; congruence|right; exists gk, o', es'; auto].
        * assert (G' : got (g, k) = match o with Some c => c | None => zero_crd end) by (unfold got; cbn [fst snd]; rewrite N; reflexivity).
          intros f x. rewrite in_app_iff, files_in, W, <- G'. split.
          -- intros [(j & v & K1 & -> & ->)|(gk & j & v & K)]; [exists (g, k), j, v; split; [left; reflexivity|]; auto|exists gk, j, v; destruct K as (K1 & K); split; [right; exact K1|exact K]].
          -- intros (gk & j & v & [<-|K1] & K2 & -> & ->); [left; exists j, v; auto|right; exists gk, j, v; auto].
    - left. destruct kinds as [|[g k] kinds]; [contradiction|]. cbn [generate_kinds] in H. destruct (need g k) as [o es1|] eqn:N; [|discriminate]. rewrite (not_v1 _ _ A) in H. injection H as <- <- <-. auto.
  Qed.
  Lemma kinds_panic vers kinds : (forall v, In v vers -> v = "v1") -> gen_kinds vers kinds = GPanic <-> exists gk, In gk kinds /\ need (fst gk) (snd gk) = CPanic.
  Proof.
    intros A. induction kinds as [|[g k] kinds IH]; [split; [discriminate|intros (gk & [] & _)]|]. cbn [generate_kinds]. destruct (need g k) as [o es1|] eqn:N.
    - rewrite (all_v1 _ _ A). destruct (gen_kinds vers kinds) as [w f es|].
      + split; [discriminate|]. intros (gk & [<-|K] & P); [cbn [fst snd] in P; congruence|]. destruct IH as [_ IH]. discriminate IH. eauto.
      + split; [|reflexivity]. intros _. destruct IH as [IH _]. destruct (IH eq_refl) as (gk & K & P). exists gk. split; [right; exact K|exact P].
    - split; [intros _|reflexivity]. exists (g, k). split; [left; reflexivity|exact N].
  Qed.
End Gen.

(** ** File names *)
Lemma app_inv_tail_str (a b c : string) : (a ++ c)%string = (b ++ c)%string -> a = b.
Proof.
  assert (L : forall x y : string, String.length (x ++ y) = String.length x + String.length y) by (induction x; intros; cbn; auto).
  revert b. induction a as [|x a IH]; intros [|y b] H; cbn in H.
  - reflexivity.
  - exfalso. apply (f_equal String.length) in H. cbn in H. rewrite L in H. lia.
  - exfalso. apply (f_equal String.length) in H. cbn in H. rewrite L in H. lia.
  - injection H as -> H. f_equal. apply IH, H.
Qed.
Lemma file_names_first g p g' p' : has_char "_"%char g = false -> has_char "_"%char g' = false ->
  (g ++ "_" ++ p ++ ".yaml")%string = (g' ++ "_" ++ p' ++ ".yaml")%string -> g = g' /\ p = p'.
Proof. intros H H' E. apply cut_at_char_unique in E as [-> E]; auto. apply app_inv_tail_str in E. auto. Qed.
Lemma app_assoc_str (a b c : string) : ((a ++ b) ++ c = a ++ b ++ c)%string.
Proof. induction a as [|x a IH]; cbn; [reflexivity|rewrite IH; reflexivity]. Qed.
Lemma file_names g p i v f g' p' i' v' : has_char "_"%char g = false -> has_char "_"%char g' = false -> has_char "."%char p = false -> has_char "."%char p' = false ->
  named g p i v f -> named g' p' i' v' f -> g = g' /\ p = p' /\ (i = 0 <-> i' = 0) /\ (i <> 0 -> v = v').
Proof.
  intros Hg Hg' Hp Hp' [[Ei ->]|[Ei ->]] [[Ei' E]|[Ei' E]]; apply cut_at_char_unique in E as [-> E]; auto; change ".yaml" with (String "."%char "yaml") in E.
  - apply cut_at_char_unique in E as [-> _]; auto. repeat split; auto; intros; contradiction.
  - exfalso. apply cut_at_char_unique in E as [_ E]; auto. apply (f_equal (has_char "."%char)) in E. change ("." ++ v' ++ String "." "yaml")%string with (String "." (v' ++ String "." "yaml")) in E. cbn in E. rewrite has_char_app in E. cbn in E. rewrite orb_true_r in E. discriminate.
  - exfalso. apply cut_at_char_unique in E as [_ E]; auto. apply (f_equal (has_char "."%char)) in E. cbn in E. rewrite has_char_app in E. cbn in E. rewrite orb_true_r in E. discriminate.
  - apply cut_at_char_unique in E as [-> E]; auto. apply app_inv_tail_str in E. repeat split; auto; intros; contradiction.
Qed.

(** ** The kinds *)
Lemma gk_eqb_eq a b : gk_eqb a b = true <-> a = b.
Proof. destruct a, b. unfold gk_eqb. cbn. rewrite andb_true_iff, !String.eqb_eq. split; [intros [-> ->]; reflexivity|intros [= -> ->]; auto]. Qed.
Lemma add_kind_in l gk x : In x (add_kind l gk) <-> x = gk \/ In x l.
Proof.
  unfold add_kind. destruct (existsb (gk_eqb gk) l) eqn:E.
  - apply existsb_exists in E as (y & Hy & E). apply gk_eqb_eq in E. subst y. split; [auto|]. intros [->|H]; assumption.
  - rewrite in_app_iff. cbn. intuition.
Qed.
Lemma add_kind_nodup l gk : NoDup l -> NoDup (add_kind l gk).
Proof.
  intros D. unfold add_kind. destruct (existsb (gk_eqb gk) l) eqn:E; [exact D|]. apply (Permutation_NoDup (Permutation_cons_append l gk)). constructor; [|exact D]. intros K.
  assert (X : existsb (gk_eqb gk) l = true); [|congruence]. apply existsb_exists. exists gk. split; [exact K|apply gk_eqb_eq; reflexivity].
Qed.
Lemma gk_string_inj a b : has_char "."%char (snd a) = false -> has_char "."%char (snd b) = false -> gk_string a = gk_string b -> a = b.
Proof.
  destruct a as [g k], b as [g' k']. unfold gk_string. cbn [fst snd]. intros H H' E. destruct (String.eqb_spec g "") as [->|N], (String.eqb_spec g' "") as [->|N'].
  - congruence.
  - exfalso. rewrite E, has_char_app in H. cbn in H. rewrite orb_true_r in H. discriminate.
  - exfalso. rewrite <- E, has_char_app in H'. cbn in H'. rewrite orb_true_r in H'. discriminate.
  - apply cut_at_char_unique in E as [-> ->]; auto.
Qed.
Section Kinds.
  Variable group_versions : list (string * (string * string)).
  Variable t_order : list ((string * string) * list string) -> list ((string * string) * list string).
  Variable embedded : list ((string * string) * list string).
  Variable k_order k_sort : list (string * string) -> list (string * string).
  Hypothesis Ht : is_order t_order.
  Hypothesis Hk : is_order k_order.
  Hypothesis Hs : sorts_by (fun a b => str_ltb (gk_string a) (gk_string b)) k_sort.
  Notation kinds := (find_kinds group_versions t_order embedded k_order k_sort).
  Definition found (l : list ((string * string) * list string)) (acc : list (string * string)) : list (string * string) :=
    fold_left (fun l x => if mem_str "ObjectMeta" (snd x) && mem_str "TypeMeta" (snd x) then add_kind l (group_of group_versions (fst (fst x)), snd (fst x)) else l) l acc.
  Lemma found_in l : forall acc gk, In gk (found l acc) <-> In gk acc \/ exists x, In x l /\ In "ObjectMeta" (snd x) /\ In "TypeMeta" (snd x) /\ gk = (group_of group_versions (fst (fst x)), snd (fst x)).
  Proof.
    induction l as [|x l IH]; intros acc gk; cbn [found fold_left].
    - split; [auto|]. intros [H|(x & [] & _)]. exact H.
    - fold (found l (if mem_str "ObjectMeta" (snd x) && mem_str "TypeMeta" (snd x) then add_kind acc (group_of group_versions (fst (fst x)), snd (fst x)) else acc)). rewrite IH. split.
      + intros [H|(y & Hy & K)]; [|right; exists y; split; [right; exact Hy|exact K]]. destruct (mem_str "ObjectMeta" (snd x) && mem_str "TypeMeta" (snd x)) eqn:E; [|left; exact H].
        apply andb_true_iff in E as [E1 E2]. apply mem_str_spec in E1, E2. apply add_kind_in in H as [->|H]; [right; exists x; split; [left; reflexivity|auto]|left; exact H].
      + intros [H|(y & [<-|Hy] & K1 & K2 & K3)].
        * left. destruct (mem_str "ObjectMeta" (snd x) && mem_str "TypeMeta" (snd x)); [apply add_kind_in; right|]; exact H.
        * left. apply mem_str_spec in K1, K2. rewrite K1, K2. cbn. apply add_kind_in. left. exact K3.
        * right. exists y. auto.
  Qed.
  Lemma found_nodup l : forall acc, NoDup acc -> NoDup (found l acc).
  Proof.
    induction l as [|x l IH]; intros acc D; [exact D|]. cbn [found fold_left]. apply IH. destruct (mem_str "ObjectMeta" (snd x) && mem_str "TypeMeta" (snd x)); [apply add_kind_nodup|]; exact D.
  Qed.
  Lemma kinds_perm : Permutation kinds (found (t_order embedded) []).
  Proof. unfold find_kinds. eapply Permutation_trans; [apply Hs|apply Hk]. Qed.
  Lemma kinds_in g k : In (g, k) kinds <-> kube_kind group_versions embedded g k.
  Proof.
    assert (E : In (g, k) kinds <-> In (g, k) (found (t_order embedded) [])) by (split; apply Permutation_in; [|apply Permutation_sym]; apply kinds_perm).
    rewrite E, found_in. unfold kube_kind. split.
    - intros [[]|([[p k'] es] & Hx & K1 & K2 & K3)]. cbn [fst snd] in *. injection K3 as -> ->. exists p, es. apply (Permutation_in _ (Ht _)) in Hx. split; [exact Hx|]. split; [exact K1|]. split; [exact K2|].
      unfold group_of. destruct (mget String.eqb group_versions p) as [[g' n]|]; [left; eauto|right; auto].
    - intros (p & es & Hx & K1 & K2 & K3). right. exists ((p, k), es). split; [apply (Permutation_in _ (Permutation_sym (Ht _))), Hx|]. split; [exact K1|]. split; [exact K2|]. cbn [fst snd]. f_equal. unfold group_of.
      destruct K3 as [(n & ->)|[-> ->]]; reflexivity.
  Qed.
  Lemma kinds_nodup : NoDup kinds.
  Proof. eapply Permutation_NoDup; [apply Permutation_sym, kinds_perm|]. apply found_nodup. constructor. Qed.
  Lemma kinds_sorted : StronglySorted (fun a b => str_ltb (gk_string b) (gk_string a) = false) kinds.
  Proof. unfold find_kinds. apply Hs. Qed.
End Kinds.
