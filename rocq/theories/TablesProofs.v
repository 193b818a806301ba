(** * Proofs about the marker tables: names, lookup and order. *)
From Coq Require Import List String Ascii Bool Arith ZArith QArith Permutation Sorting.Sorted Lia.
From Verif Require Import GoLib GoLibFacts RegistryModel RegistrySpec RegistryProofs RegistryProps ParseModel TablesModel TablesSpec.
Import ListNotations.
Open Scope string_scope.
Open Scope list_scope.

(** ** Deciding equality of definitions *)
Definition arg_dec (a b : arg) : {a = b} + {a <> b}. Proof. decide equality; apply Bool.bool_dec. Defined.
Definition field_dec (a b : field) : {a = b} + {a <> b}. Proof. decide equality; try apply Bool.bool_dec; try apply arg_dec; apply string_dec. Defined.
Definition definition_dec (a b : definition) : {a = b} + {a <> b}.
Proof. decide equality; try apply Bool.bool_dec. apply list_eq_dec. intros [x f] [y g]. destruct (string_dec x y); [|right; congruence]. destruct (field_dec f g); [left|right]; congruence. Defined.
Definition kind_dec (a b : kind) : {a = b} + {a <> b}. Proof. decide equality. Defined.
Definition target_dec (a b : target) : {a = b} + {a <> b}. Proof. decide equality. Defined.
Definition payload_dec (a b : payload) : {a = b} + {a <> b}. Proof. decide equality; [apply definition_dec|apply kind_dec]. Defined.
Definition def_dec (a b : def payload) : {a = b} + {a <> b}. Proof. decide equality; [apply payload_dec|apply target_dec|apply string_dec]. Defined.
Definition triple_dec (a b : kind * target * string) : {a = b} + {a <> b}.
Proof. decide equality; [apply string_dec|]. decide equality; [apply target_dec|apply kind_dec]. Defined.

Definition gens : list generator := [GenCrd; GenRbac; GenObject; GenApply; GenWebhook; GenSchemapatch].
Lemma all_gens g : In g gens. Proof. destruct g; cbn; auto 7. Qed.

(** What holds of every definition, checked by evaluation *)
Lemma each_def (f : def payload -> bool) : forallb (fun g => forallb f (made (table g))) gens = true -> forall g d, In d (made (table g)) -> f d = true.
Proof. intros H g d Hd. rewrite forallb_forall in H. specialize (H g (all_gens g)). rewrite forallb_forall in H. apply H, Hd. Qed.
Lemma each_pair (f : def payload -> def payload -> bool) : forallb (fun g => forallb (fun d => forallb (fun g' => forallb (f d) (made (table g'))) gens) (made (table g))) gens = true ->
  forall g g' d d', In d (made (table g)) -> In d' (made (table g')) -> f d d' = true.
Proof. intros H g g' d d' Hd Hd'. apply (each_def (f d)) with g'; [|exact Hd']. revert g d Hd. apply (each_def (fun d => forallb (fun g' => forallb (f d) (made (table g'))) gens)). exact H. Qed.

Definition same_place (d d' : def payload) : bool := (if target_dec (d_target d) (d_target d') then true else false) && String.eqb (d_name d) (d_name d').
Lemma tables_unique g g' d d' : In d (made (table g)) -> In d' (made (table g')) -> d_target d = d_target d' -> d_name d = d_name d' -> d = d'.
Proof.
  intros Hd Hd' Et En. assert (F := each_pair (fun d d' => if same_place d d' then if def_dec d d' then true else false else true) ltac:(vm_compute; reflexivity) g g' d d' Hd Hd').
  cbn beta in F. unfold same_place in F. rewrite Et, En, String.eqb_refl in F. destruct (target_dec _ _); [|congruence]. cbn in F. destruct (def_dec d d'); [assumption|discriminate].
Qed.
Lemma names_plain g d : In d (made (table g)) -> has_char "=" (d_name d) = false.
Proof. intros H. apply negb_true_iff. revert g d H. apply each_def. vm_compute. reflexivity. Qed.

Lemma initialised_all g : initialised (table g) = true. Proof. destruct g; vm_compute; reflexivity. Qed.

(** ** Names *)
Definition ft : list target := [DescribesField; DescribesType].
Definition crd_list : list (kind * target * string) :=
  flat_map (fun kw => map (fun t => (fst kw, t, "kubebuilder:validation:" ++ snd kw)%string) ft) words ++
  flat_map (fun kw => map (fun t => (fst kw, t, "kubebuilder:validation:items:" ++ snd kw)%string) ft) words ++
  flat_map (fun kn => map (fun t => (fst kn, t, snd kn)) ft) [(TXPreserveUnknownFields, "kubebuilder:pruning:PreserveUnknownFields"); (TListType, "listType"); (TListMapKey, "listMapKey");
    (TMapType, "mapType"); (TStructType, "structType")] ++
  map (fun kn => (fst kn, DescribesField, snd kn)) [(TUnit, "required"); (TUnit, "optional"); (TUnit, "kubebuilder:validation:Required"); (TUnit, "kubebuilder:validation:Optional");
    (TNullable, "nullable"); (TDefault, "kubebuilder:default"); (TKubernetesDefault, "default"); (TExample, "kubebuilder:example"); (TTitle, "kubebuilder:title");
    (TXEmbeddedResource, "kubebuilder:validation:EmbeddedResource"); (TSchemaless, "kubebuilder:validation:Schemaless")] ++
  map (fun kn => (fst kn, DescribesType, snd kn)) [(TSubresourceStatus, "kubebuilder:subresource:status"); (TSubresourceScale, "kubebuilder:subresource:scale");
    (TPrintColumn, "kubebuilder:printcolumn"); (TResource, "kubebuilder:resource"); (TStorageVersion, "kubebuilder:storageversion"); (TSkipVersion, "kubebuilder:skipversion");
    (TUnservedVersion, "kubebuilder:unservedversion"); (TDeprecatedVersion, "kubebuilder:deprecatedversion"); (TMetadata, "kubebuilder:metadata");
    (TSelectableField, "kubebuilder:selectablefield")] ++
  map (fun kn => (fst kn, DescribesPackage, snd kn)) [(TText, "groupName"); (TText, "versionName"); (TUnit, "kubebuilder:validation:Optional"); (TUnit, "kubebuilder:validation:Required");
    (TUnit, "kubebuilder:skip")].
Lemma in_ft t : In t ft <-> t = DescribesField \/ t = DescribesType. Proof. cbn. intuition. Qed.
Lemma crd_listed k t n : crd_spelled k t n <-> In (k, t, n) crd_list.
Proof.
  unfold crd_list. rewrite !in_app_iff. split.
  - intros []; [do 0 right; left|do 1 right; left|do 2 right; left|do 3 right; left|do 4 right; left|do 5 right].
    1-2: apply in_flat_map; exists (k0, w); split; [assumption|]; apply in_map_iff; exists t0; split; [reflexivity|apply in_ft; assumption].
    1: apply in_flat_map; exists (k0, n0); split; [assumption|]; apply in_map_iff; exists t0; split; [reflexivity|apply in_ft; assumption].
    all: apply in_map_iff; exists (k0, n0); split; [reflexivity|assumption].
  - intros [H|[H|[H|[H|[H|H]]]]].
    1-3: apply in_flat_map in H as ((k' & w) & Hw & H); apply in_map_iff in H as (t' & E & Ht); cbn [fst snd] in E; injection E as -> -> <-; apply in_ft in Ht;
      first [apply spelled_both; assumption|apply spelled_items; assumption|apply spelled_validation; assumption].
    all: apply in_map_iff in H as ((k' & n') & E & H); cbn [fst snd] in E; injection E as -> <- ->; first [apply spelled_field; assumption|apply spelled_type; assumption|apply spelled_package; assumption].
Qed.
Definition spelled_list (g : generator) : list (kind * target * string) :=
  match g with
  | GenCrd | GenSchemapatch => crd_list
  | GenRbac => [(TRule, DescribesPackage, "kubebuilder:rbac")]
  | GenWebhook => [(TConfig, DescribesPackage, "kubebuilder:webhook"); (TWebhookConfig, DescribesPackage, "kubebuilder:webhookconfiguration")]
  | GenObject => [(TBool, DescribesPackage, "kubebuilder:object:generate"); (TBool, DescribesType, "kubebuilder:object:generate");
    (TBool, DescribesType, "kubebuilder:object:root"); (TRaw, DescribesPackage, "k8s:deepcopy-gen"); (TRaw, DescribesType, "k8s:deepcopy-gen");
    (TText, DescribesType, "k8s:deepcopy-gen:interfaces")]
  | GenApply => [(TResource, DescribesType, "kubebuilder:resource"); (TBool, DescribesPackage, "kubebuilder:ac:generate");
    (TBool, DescribesType, "kubebuilder:ac:generate"); (TText, DescribesPackage, "kubebuilder:ac:output:package")]
  end.
Lemma spelled_listed g k t n : spelled g k t n <-> In (k, t, n) (spelled_list g).
Proof.
  split.
  - intros [g' k' t' n' G C | | k' n' H | k' t' n' H | k' t' n' H]; cbn [spelled_list].
    + destruct G as [-> | ->]; apply crd_listed, C.
    + left; reflexivity.
    + cbn in H |- *. destruct H as [E|[E|[]]]; injection E as <- <-; auto.
    + exact H.
    + exact H.
  - destruct g; cbn [spelled_list]; intros H.
    + apply spelled_schema; [auto|apply crd_listed, H].
    + destruct H as [E|[]]. injection E as <- <- <-. apply spelled_rbac.
    + apply spelled_object, H.
    + apply spelled_apply, H.
    + cbn in H. destruct H as [E|[E|[]]]; injection E as <- <- <-; apply spelled_webhook; cbn; auto.
    + apply spelled_schema; [auto|apply crd_listed, H].
Qed.
Definition triple (d : def payload) : kind * target * string := (p_kind (d_payload d), d_target d, d_name d).
Definition sub_list (a b : list (kind * target * string)) : bool := forallb (fun x => if in_dec triple_dec x b then true else false) a.
Lemma sub_list_in a b x : sub_list a b = true -> In x a -> In x b.
Proof. unfold sub_list. rewrite forallb_forall. intros H Hx. specialize (H x Hx). destruct (in_dec triple_dec x b); [assumption|discriminate]. Qed.
Lemma table_listed g : sub_list (map triple (made (table g))) (spelled_list g) = true /\ sub_list (spelled_list g) (map triple (made (table g))) = true.
Proof. destruct g; vm_compute; auto. Qed.
Lemma table_spelled g k t n : (exists d, In d (made (table g)) /\ d_target d = t /\ d_name d = n /\ p_kind (d_payload d) = k) <-> spelled g k t n.
Proof.
  rewrite spelled_listed. destruct (table_listed g) as [A B]. split.
  - intros (d & H & <- & <- & <-). apply (sub_list_in _ _ _ A). apply (in_map triple), H.
  - intros H. apply (sub_list_in _ _ _ B) in H. apply in_map_iff in H as (d & E & H). exists d. injection E as <- <- <-. auto.
Qed.

(** ** Lookup *)
Lemma in_definitions gs d : In d (definitions gs) <-> exists g, In g gs /\ In d (made (table g)).
Proof. unfold definitions. rewrite in_flat_map. reflexivity. Qed.
Lemma definitions_unique gs d d' : In d (definitions gs) -> In d' (definitions gs) -> d_target d = d_target d' -> d_name d = d_name d' -> d = d'.
Proof. intros (g & _ & H)%in_definitions (g' & _ & H')%in_definitions. exact (tables_unique g g' d d' H H'). Qed.
Lemma known_definition gs k t n : known gs k t n <-> exists d, In d (definitions gs) /\ d_target d = t /\ d_name d = n /\ p_kind (d_payload d) = k.
Proof.
  unfold known. split.
  - intros (g & G & S). apply table_spelled in S as (d & H & R). exists d. split; [apply in_definitions; eauto|exact R].
  - intros (d & H & R). apply in_definitions in H as (g & G & H). exists g. split; [exact G|]. apply table_spelled. eauto.
Qed.
Lemma last_place (ds : list (def payload)) t n : (exists d, In d ds /\ d_target d = t /\ d_name d = n) -> exists d, registered_as ds t n d.
Proof.
  induction ds as [|x ds IH]; intros (d & H & Et & En); [destruct H|].
  destruct (existsb (fun d => (if target_dec (d_target d) t then true else false) && String.eqb (d_name d) n) ds) eqn:E.
  - apply existsb_exists in E as (d' & H' & E). apply andb_true_iff in E as (E1 & E2). destruct (target_dec _ _) as [E1'|]; [|discriminate]. apply String.eqb_eq in E2.
    destruct IH as (d2 & l1 & l2 & -> & R); [eauto|]. exists d2, (x :: l1), l2. split; [reflexivity|exact R].
  - assert (N : forall d', In d' ds -> ~ (d_target d' = t /\ d_name d' = n)).
    { intros d' H' (<- & <-). assert (existsb (fun d => (if target_dec (d_target d) (d_target d') then true else false) && String.eqb (d_name d) (d_name d')) ds = true); [|congruence].
      apply existsb_exists. exists d'. split; [exact H'|]. destruct (target_dec _ _); [|congruence]. now rewrite String.eqb_refl. }
    destruct H as [->|H]; [|elim (N d H); auto]. exists d, [], ds. repeat split; auto.
Qed.
Lemma registered_iff gs t n d : registered_as (definitions gs) t n d <-> In d (definitions gs) /\ d_target d = t /\ d_name d = n.
Proof.
  split.
  - intros (l1 & l2 & E & Et & En & _). split; [rewrite E; apply in_elt|auto].
  - intros (H & Et & En). destruct (last_place (definitions gs) t n) as (d' & R); [eauto|]. assert (R' := R). destruct R' as (l1 & l2 & E & Et' & En' & _).
    assert (d = d') as ->; [|exact R]. apply (definitions_unique gs); [exact H|rewrite E; apply in_elt|congruence|congruence].
Qed.

Lemma lookup_name gs d rest : In d (definitions gs) -> lookup payload (registry_of gs) ("+" ++ d_name d ++ "=" ++ rest) (d_target d) = Some d.
Proof.
  intros H. assert (R : registered_as (definitions gs) (d_target d) (d_name d) d) by (apply registered_iff; auto).
  assert (P : has_char "=" (d_name d) = false) by (apply in_definitions in H as (g & _ & H); apply (names_plain g), H).
  unfold registry_of. destruct (has_char ":" (d_name d)) eqn:C.
  - apply last_colon in C as (p & a & E & Ha). rewrite E in P, R |- *. rewrite has_char_app in P. simpl in P. apply orb_false_iff in P as [P1 P2].
    apply (marker_lookup payload (definitions gs) (d_target d) p a rest d); auto.
  - apply marker_lookup_flat; auto.
Qed.
Lemma lookup_plain_name gs d : In d (definitions gs) -> lookup payload (registry_of gs) ("+" ++ d_name d) (d_target d) = Some d.
Proof.
  intros H. apply marker_lookup_plain; [|apply registered_iff; auto]. apply in_definitions in H as (g & _ & H). apply (names_plain g), H.
Qed.
Lemma lookup_part gs d a rest : In d (definitions gs) -> has_char "=" a = false -> has_char ":" a = false ->
  (forall d', In d' (definitions gs) -> d_name d' <> (d_name d ++ ":" ++ a)%string) ->
  lookup payload (registry_of gs) ("+" ++ (d_name d ++ ":" ++ a) ++ "=" ++ rest) (d_target d) = Some d.
Proof.
  intros H A B N. assert (P : has_char "=" (d_name d) = false) by (apply in_definitions in H as (g & _ & H); apply (names_plain g), H).
  apply (marker_lookup payload (definitions gs) (d_target d)); auto. right. split; [|apply registered_iff; auto]. intros d' H' (_ & E). exact (N d' H' E).
Qed.
(** What is found is a definition whose name the text has, perhaps with one more part *)
Lemma lookup_found gs raw t d : lookup payload (registry_of gs) raw t = Some d -> In d (definitions gs) /\ d_target d = t /\
  exists c, raw = String c (d_name d) \/ (exists rest, raw = String c (d_name d ++ "=" ++ rest)) \/
    (exists a rest, raw = String c (d_name d ++ ":" ++ a ++ "=" ++ rest) /\ has_char "=" a = false /\ has_char ":" a = false).
Proof.
  intros H. destruct raw as [|c body]; [discriminate|]. assert (NE : String c body <> "") by discriminate.
  destruct (marker_forms (String c body) NE) as (c' & body' & E & F). injection E as <- <-. unfold registry_of in H. destruct F as [P|[(n & rest & -> & P1 & P2)|(p & a & rest & -> & P1 & P2 & P3)]].
  - apply (lookup_plain payload (definitions gs) t c body d P) in H. apply registered_iff in H as (H & Et & En). repeat split; auto. exists c. left. congruence.
  - apply (lookup_flat payload (definitions gs) t c n rest d P1 P2) in H. apply registered_iff in H as (H & Et & En). repeat split; auto. exists c. right; left. exists rest. congruence.
  - apply (lookup_colon payload (definitions gs) t c p a rest d P1 P2 P3) in H. destruct H as [H|[_ H]]; apply registered_iff in H as (H & Et & En); repeat split; auto; exists c; right.
    + left. exists rest. rewrite En. reflexivity.
    + right. exists a, rest. rewrite En. split; [|auto]. f_equal. now rewrite <- !str_app_assoc.
Qed.

(** ** Which generators run *)
Definition no_shadow (d d' : def payload) : bool :=
  if target_dec (d_target d) (d_target d') then
    if has_prefix (d_name d ++ ":") (d_name d') then
      forallb (fun g => implb (existsb (fun x => if def_dec x d then true else false) (made (table g))) (existsb (fun x => if def_dec x d' then true else false) (made (table g)))) gens
    else true
  else true.
Lemma existsb_def l d : existsb (fun x => if def_dec x d then true else false) l = true <-> In d l.
Proof.
  rewrite existsb_exists. split.
  - intros (x & H & E). destruct (def_dec x d) as [->|]; [assumption|discriminate].
  - intros H. exists d. split; [exact H|]. destruct (def_dec d d); congruence.
Qed.
Lemma has_prefix_app p s : has_prefix p (p ++ s) = true. Proof. induction p as [|a p IH]; cbn; [now destruct s|]. now rewrite Ascii.eqb_refl. Qed.
Lemma shadow g g' g2 d d' a : In d (made (table g)) -> In d' (made (table g')) -> d_target d = d_target d' -> d_name d' = (d_name d ++ ":" ++ a)%string -> In d (made (table g2)) -> In d' (made (table g2)).
Proof.
  intros Hd Hd' Et En H2. assert (F := each_pair no_shadow ltac:(vm_compute; reflexivity) g g' d d' Hd Hd'). unfold no_shadow in F. rewrite Et, En in F.
  destruct (target_dec (d_target d') (d_target d')); [|congruence]. rewrite <- (str_app_assoc (d_name d) ":" a), has_prefix_app in F.
  rewrite forallb_forall in F. specialize (F g2 (all_gens g2)). apply existsb_def in H2. rewrite H2 in F. cbn in F. apply existsb_def, F.
Qed.
Lemma lookup_more gs gs' raw t d : incl gs gs' -> lookup payload (registry_of gs) raw t = Some d -> lookup payload (registry_of gs') raw t = Some d.
Proof.
  intros I H. assert (I' : incl (definitions gs) (definitions gs')). { intros x Hx. apply in_definitions in Hx as (g & G & Hx). apply in_definitions. exists g. auto. }
  destruct raw as [|c body]; [discriminate|]. assert (NE : String c body <> "") by discriminate.
  destruct (marker_forms (String c body) NE) as (c' & body' & E & F). injection E as <- <-. unfold registry_of in *. destruct F as [P|[(n & rest & -> & P1 & P2)|(p & a & rest & -> & P1 & P2 & P3)]].
  - apply (lookup_plain payload (definitions gs) t c body d P) in H. apply registered_iff in H as (H & R). apply (lookup_plain payload _ t c body d P). apply registered_iff. auto.
  - apply (lookup_flat payload (definitions gs) t c n rest d P1 P2) in H. apply registered_iff in H as (H & R). apply (lookup_flat payload _ t c n rest d P1 P2). apply registered_iff; auto.
  - apply (lookup_colon payload (definitions gs) t c p a rest d P1 P2 P3) in H. apply (lookup_colon payload _ t c p a rest d P1 P2 P3). destruct H as [H|[U H]]; apply registered_iff in H as (H & Et & En).
    + left. apply registered_iff. auto.
    + right. split; [|apply registered_iff; auto]. intros d' H' (Et' & En'). apply in_definitions in H as (g & G & H). apply in_definitions in H' as (g' & G' & H').
      apply (U d'); [|auto]. apply in_definitions. exists g. split; [exact G|]. apply (shadow g g' g d d' a); auto; [congruence|rewrite En', En; reflexivity].
Qed.
