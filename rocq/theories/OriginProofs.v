(** * C64: from comments to the sets of markers, and what the values of a type then obey *)
From Coq Require Import List String Ascii Bool Arith ZArith NArith QArith Permutation Lia.
From Verif Require Import GoLib GoLibFacts MapFacts SchemaModel ErrorsModel ValidSpec MarkModel MarkSpec StructModel FlattenModel NeedModel StructSpec StructProofs EmitSpec RegistryModel CollectModel CollectSpec CollectProps
  TablesModel TablesSpec TablesProofs TablesProofs3 SourceModel SourceSpec SourceProofs SourceProofs2 SourceProofs3 SourceProofs4 SourceProps OriginModel OriginSpec.
Import ListNotations.
Open Scope string_scope.
Open Scope list_scope.

Lemma name_in (m : mvals) n v : In v (of_name m n) <-> exists l, mget String.eqb m n = Some l /\ In v l.
Proof. unfold of_name. destruct (mget String.eqb m n) as [l|]; [split; [intros H; exists l; auto|intros (l' & [= <-] & H); exact H]|split; [intros []|intros (l & H & _); discriminate]]. Qed.
Lemma schema_set_get (m : mvals) n : mget String.eqb (schema_set m) n = match mget String.eqb m n with Some l => Some (map schema_value l) | None => None end.
Proof. unfold schema_set. induction m as [|[k l] m IH]; [reflexivity|]. cbn. destruct (String.eqb n k); [reflexivity|exact IH]. Qed.
Lemma set_marked (m : mvals) n : marked (schema_set m) n <-> of_name m n <> [].
Proof.
  unfold marked, of_name. rewrite schema_set_get. destruct (mget String.eqb m n) as [[|v l]|]; split; try (intros (a & b & H); discriminate H); try congruence.
  - intros _. exists (schema_value v), (map schema_value l). reflexivity.
Qed.
Lemma set_markers (m : mvals) n sm : In (TvSchema sm) (of_name m n) -> In sm (markers_of (schema_set m) (has_prefix items_prefix n)).
Proof.
  intros H. apply name_in in H as (l & G & I). apply (MapFacts.mget_in _ _ String.eqb String.eqb_eq) in G. unfold markers_of. apply in_flat_map. exists (n, map schema_value l).
  split; [apply in_map_iff; exists (n, l); auto|]. cbn [fst snd]. rewrite Bool.eqb_reflx. apply in_flat_map. exists (VSchema sm). split; [apply in_map_iff; exists (TvSchema sm); auto|now left].
Qed.

(** The tables, gone through *)
Lemma tables_checked (t : def payload -> bool) : forallb (fun g => forallb t (made (table g))) [GenCrd; GenRbac; GenWebhook; GenObject; GenSchemapatch; GenApply] = true ->
  forall gs d, In d (definitions gs) -> t d = true.
Proof.
  intros H gs d I. apply in_definitions in I as (g & _ & I). rewrite forallb_forall in H. assert (Ig : In g [GenCrd; GenRbac; GenWebhook; GenObject; GenSchemapatch; GenApply]) by (destruct g; cbn; tauto).
  pose proof (H g Ig) as Hg. rewrite forallb_forall in Hg. exact (Hg d I).
Qed.
Definition package_only_names := ["groupName"; "versionName"; "kubebuilder:validation:Optional"; "kubebuilder:skip"].
Lemma not_at_types gs n : In n package_only_names -> forall k, ~ known gs k DescribesType n.
Proof.
  intros I k K. apply known_definition in K as (d & Id & Et & En & _).
  pose proof (tables_checked (fun d => match d_target d with DescribesType => negb (mem_str (d_name d) package_only_names) | _ => true end) ltac:(vm_compute; reflexivity) gs d Id) as H.
  cbv beta in H. rewrite Et, En, (proj2 (mem_str_spec n _) I) in H. discriminate.
Qed.
(** Each kind of CRD marker has one name. *)
Definition crd_name_of (k : kind) : option string :=
  match k with
  | TSubresourceStatus => Some "kubebuilder:subresource:status" | TSubresourceScale => Some "kubebuilder:subresource:scale" | TPrintColumn => Some "kubebuilder:printcolumn"
  | TResource => Some "kubebuilder:resource" | TStorageVersion => Some "kubebuilder:storageversion" | TSkipVersion => Some "kubebuilder:skipversion"
  | TUnservedVersion => Some "kubebuilder:unservedversion" | TDeprecatedVersion => Some "kubebuilder:deprecatedversion" | TMetadata => Some "kubebuilder:metadata"
  | TSelectableField => Some "kubebuilder:selectablefield" | _ => None
  end.
Lemma crd_named gs k n a : known gs k DescribesType n -> crd_name_of k = Some a -> n = a.
Proof.
  intros K E. apply known_definition in K as (d & Id & Et & En & Ek).
  pose proof (tables_checked (fun d => match crd_name_of (p_kind (d_payload d)) with Some a => String.eqb (d_name d) a | None => true end) ltac:(vm_compute; reflexivity) gs d Id) as H.
  cbv beta in H. rewrite Ek, E, En in H. apply String.eqb_eq, H.
Qed.

Section Sets.
  Variable fval : string -> option Q.
  Variable json_read : string -> option json.
  Variable gs : list generator.
  Variable forder : file -> list (nat * list marker) -> list (nat * list marker).
  Variable vorder : list (string * list tvalue) -> list (string * list tvalue).
  Hypothesis forder_perm : forall f l, Permutation (forder f l) l.
  Hypothesis vorder_perm : forall l, Permutation (vorder l) l.
  Notation marks := (marks fval json_read gs forder).
  Notation package_marks := (package_marks fval json_read gs forder vorder).
  Notation indexed := (indexed fval json_read gs forder vorder).
  Notation said := (said fval json_read gs).

  Lemma indexed_package gp : indexed gp = true -> package_set fval json_read gs forder vorder (gp_files gp) = Some (inl (package_marks gp)) /\ of_name (package_marks gp) "kubebuilder:skip" = [].
  Proof.
    unfold OriginModel.indexed, OriginModel.package_marks. destruct (package_set _ _ _ _ _ _) as [[m|e]|]; try discriminate. intros H. split; [reflexivity|]. destruct (of_name m "kubebuilder:skip"); [reflexivity|discriminate].
  Qed.
  Lemma indexed_nodes gp id : indexed gp = true -> node_set fval json_read gs forder (gp_files gp) id = Some (inl (marks gp id)).
  Proof.
    intros H. apply indexed_package in H as (H & _). unfold OriginModel.marks. unfold package_set in H. unfold node_set. destruct (all_values fval json_read gs forder (gp_files gp)) as [[vss [|e es]]|]; [reflexivity|discriminate|discriminate].
  Qed.
  Lemma field_said gp fd n v : compiled gp -> indexed gp = true -> said (field_comment gp (df_node fd)) DescribesField n v -> In v (of_name (marks gp (df_node fd)) n).
  Proof.
    intros C X (k & c & text & (f & top & h & If & Ih & Kh & Eh & Nc) & Ct & K & S). pose proof (indexed_nodes gp (df_node fd) X) as E. rewrite <- Eh in E |- *.
    exact (source_field_complete fval json_read gs forder forder_perm _ f top h _ k n c text v (cp_files gp C) (cp_nodes gp C) If Ih Kh E Nc Ct K S).
  Qed.
  Lemma field_found gp d fd n v : compiled gp -> indexed gp = true -> In d (gp_decls gp) -> In fd (td_fields d) -> In v (of_name (marks gp (df_node fd)) n) ->
    exists c text k, field_comment gp (df_node fd) c /\ comment_is c text /\ has_name n text /\ value_kind v = Some k /\ known gs k DescribesField n.
  Proof.
    intros C X Id Ifd H. destruct (cp_fields gp C d fd Id Ifd) as (f & top & h & If & Ih & Kh & Eh). pose proof (indexed_nodes gp (df_node fd) X) as E. rewrite <- Eh in E, H |- *.
    destruct (source_field_sound fval json_read gs forder forder_perm _ f top h _ n v (cp_files gp C) (cp_nodes gp C) If Ih Kh E H) as (c & text & k & Nc & R). exists c, text, k. split; [|exact R]. exists f, top, h. auto.
  Qed.
  Lemma field_silent gp d fd n : compiled gp -> indexed gp = true -> In d (gp_decls gp) -> In fd (td_fields d) -> no_comment gp fd n -> of_name (marks gp (df_node fd)) n = [].
  Proof.
    intros C X Id Ifd N. destruct (of_name (marks gp (df_node fd)) n) as [|v l] eqn:E; [reflexivity|]. exfalso. destruct (field_found gp d fd n v C X Id Ifd) as (c & text & k & Fc & Ct & Hn & _); [rewrite E; now left|].
    exact (N c text Fc Ct Hn).
  Qed.
  Lemma spec_said gp d n v : compiled gp -> indexed gp = true -> said (spec_comment gp (td_node d)) DescribesType n v -> In v (of_name (marks gp (td_node d)) n).
  Proof.
    intros C X (k & c & text & (f & before & top & h & after & If & Ih & Kh & Eh & Nc) & Ct & K & S). pose proof (indexed_nodes gp (td_node d) X) as E. rewrite <- Eh in E |- *.
    exact (source_type_complete fval json_read gs forder forder_perm _ f before top h after _ k n c text v (cp_files gp C) (cp_nodes gp C) If Ih Kh E Nc Ct K S).
  Qed.
  Lemma spec_found gp d n v : compiled gp -> indexed gp = true -> In d (gp_decls gp) -> In v (of_name (marks gp (td_node d)) n) ->
    exists c text k, spec_comment gp (td_node d) c /\ comment_is c text /\ has_name n text /\ value_kind v = Some k /\ known gs k DescribesType n.
  Proof.
    intros C X Id H. destruct (cp_types gp C d Id) as (f & before & top & h & after & If & Ih & Kh & Eh). pose proof (indexed_nodes gp (td_node d) X) as E. rewrite <- Eh in E, H |- *.
    destruct (source_type_sound fval json_read gs forder forder_perm _ f before top h after _ n v (cp_files gp C) (cp_nodes gp C) If Ih Kh E H) as (c & text & k & Nc & R). exists c, text, k. split; [|exact R]. exists f, before, top, h, after. auto.
  Qed.
  Lemma package_silent gp n : compiled gp -> (forall k, ~ known gs k DescribesType n) ->
    (forall c text, package_comment (gp_files gp) c -> comment_is c text -> ~ has_name n text) -> of_name (package_marks gp) n = [].
  Proof.
    intros C N H. destruct (of_name (package_marks gp) n) as [|v l] eqn:E; [reflexivity|]. exfalso. unfold OriginModel.package_marks in E. destruct (package_set _ _ _ _ _ _) as [[m|e]|] eqn:P; try discriminate.
    destruct (source_package_sound fval json_read gs forder vorder forder_perm vorder_perm _ m n v (cp_files gp C) P N) as (c & text & k & Pc & Ct & Hn & _); [rewrite E; now left|]. exact (H c text Pc Ct Hn).
  Qed.
  Lemma package_said gp n v : compiled gp -> indexed gp = true -> (forall k, ~ known gs k DescribesType n) -> said (package_comment (gp_files gp)) DescribesPackage n v -> In v (of_name (package_marks gp) n).
  Proof.
    intros C X N (k & c & text & Pc & Ct & K & S). apply indexed_package in X as (P & _). apply (source_package_complete fval json_read gs forder vorder forder_perm vorder_perm _ _ k n v (cp_files gp C) P K N). exists c, text. auto.
  Qed.

  (** ** The types *)
  Variable srcs : list (string * gpackage).
  Hypothesis srcs_nodup : NoDup (map fst srcs).
  Hypothesis srcs_compiled : forall p gp, In (p, gp) srcs -> compiled gp.
  Notation types := (source_types fval json_read gs forder vorder srcs).
  Notation type_info := (type_info fval json_read gs forder).
  Notation field_info := (field_info fval json_read gs forder).
  Notation pkg_markers := (source_pkg_markers fval json_read gs forder vorder srcs).

  Lemma find_last gp d : compiled gp -> In d (gp_decls gp) -> find (fun e => String.eqb (td_name e) (td_name d)) (rev (gp_decls gp)) = Some d.
  Proof.
    intros C I. pose proof (cp_names gp C) as N. destruct (find (fun e => String.eqb (td_name e) (td_name d)) (rev (gp_decls gp))) as [e|] eqn:F.
    - apply find_some in F as (Ie & F). apply in_rev in Ie. apply String.eqb_eq in F. f_equal. revert I Ie F N. generalize (gp_decls gp). intros l. induction l as [|x l IH]; [intros []|]. cbn. intros I Ie F N. inversion N as [|? ? Nx Nl]; subst.
      destruct I as [->|I], Ie as [->|Ie]; auto; exfalso; apply Nx; apply in_map_iff; [exists e|exists d]; auto.
    - exfalso. apply in_rev in I. pose proof (find_none _ _ F _ I) as E. cbn in E. now rewrite String.eqb_refl in E.
  Qed.
  Lemma types_iff id ti : types id = Some ti <-> exists gp d, In (fst id, gp) srcs /\ indexed gp = true /\ In d (gp_decls gp) /\ td_name d = snd id /\ ti = type_info gp d.
  Proof.
    unfold source_types, find_type. split.
    - destruct (mget String.eqb srcs (fst id)) as [gp|] eqn:G; [|discriminate]. apply (MapFacts.mget_in _ _ String.eqb String.eqb_eq) in G. destruct (indexed gp) eqn:X; [|discriminate].
      destruct (find _ _) as [d|] eqn:F; [|discriminate]. intros [= <-]. apply find_some in F as (I & E). apply in_rev in I. apply String.eqb_eq in E. exists gp, d. auto.
    - intros (gp & d & G & X & I & E & ->). pose proof (srcs_compiled _ _ G) as C. apply (MapFacts.in_mget _ _ String.eqb String.eqb_eq) in G; [|exact srcs_nodup]. rewrite G, X, <- E, (find_last gp d C I). reflexivity.
  Qed.
  Lemma one_source p gp gp' : In (p, gp) srcs -> In (p, gp') srcs -> gp = gp'.
  Proof. intros I I'. apply (MapFacts.in_mget _ _ String.eqb String.eqb_eq) in I; [|exact srcs_nodup]. apply (MapFacts.in_mget _ _ String.eqb String.eqb_eq) in I'; [|exact srcs_nodup]. congruence. Qed.
  Lemma one_decl gp d d' : compiled gp -> In d (gp_decls gp) -> In d' (gp_decls gp) -> td_name d = td_name d' -> d = d'.
  Proof. intros C I I' E. pose proof (find_last gp d C I) as F. pose proof (find_last gp d' C I') as F'. rewrite <- E in F'. congruence. Qed.

  Variable O : oracles.
  Variable ignore_unexported : bool.
  Variable presets : string -> list (string * schema).
  Notation conforms := (conforms O ignore_unexported pkg_markers types presets).
  Notation holds := (holds O ignore_unexported pkg_markers types presets).
  Notation fits := (fits O ignore_unexported pkg_markers types presets).
  Notation declares := (declares presets srcs).
  Notation within := (within ignore_unexported presets srcs).
  Notation json_name := (json_name ignore_unexported).
  Notation inlines := (inlines ignore_unexported).

  Lemma declared id gp d ti : declares id gp d -> types id = Some ti -> indexed gp = true /\ ti = type_info gp d.
  Proof.
    intros (Ip & I & E & _) T. apply types_iff in T as (gp' & d' & Ip' & X & I' & E' & ->). pose proof (one_source _ _ _ Ip Ip') as ->. rewrite (one_decl gp' d d' (srcs_compiled _ _ Ip) I I' ltac:(congruence)). auto.
  Qed.
  Lemma declared_known id gp d v : declares id gp d -> conforms id v -> indexed gp = true /\ types id = Some (type_info gp d).
  Proof.
    intros D H. assert (P := proj2 (proj2 (proj2 D))). inversion H; subst; try congruence;
    match goal with T : types id = Some ?ti |- _ => destruct (declared id gp d ti D T) as (X & ->); split; [exact X|exact T] end.
  Qed.

  Lemma fits_own e pkg own its v : fits pkg e own its v -> forall m, In m own -> admits O m kw0 v.
  Proof.
    revert own its. induction e; intros own its H m I; inversion H; subst; try (match goal with K : keeps _ own _ _ _ |- _ => apply K, I end).
    eauto.
  Qed.
  Lemma conforms_own id ti v : mget String.eqb (presets (fst id)) (snd id) = None -> types id = Some ti -> conforms id v -> forall m, In m (markers_of (ti_markers ti) false) -> admits O m kw0 v.
  Proof.
    intros P T H m I. inversion H; subst; try congruence; match goal with T' : types id = Some ?x |- _ => rewrite T in T'; injection T' as <- end;
    try (match goal with K : keeps _ (markers_of _ _) _ _ _ |- _ => apply K, I end).
    eapply fits_own; eassumption.
  Qed.

  (** The struct's clauses *)
  Lemma record_clauses id gp d v : declares id gp d -> is_record d -> conforms id v -> indexed gp = true /\
    (forall l f n i, v = JObj l -> In f (map (field_info gp) (td_fields d)) -> plays ignore_unexported (pkg_markers (fst id)) f (Member n i true) -> mget String.eqb l n <> None) /\
    (forall l f n q x, v = JObj l -> In f (map (field_info gp) (td_fields d)) -> plays ignore_unexported (pkg_markers (fst id)) f (Member n false q) -> mget String.eqb l n = Some x -> holds (fst id) f x) /\
    (forall f n q, In f (map (field_info gp) (td_fields d)) -> plays ignore_unexported (pkg_markers (fst id)) f (Member n true q) -> holds (fst id) f v).
  Proof.
    intros D (Er & Ej & Et) H. destruct (declared_known id gp d v D H) as (X & T). split; [exact X|]. assert (P := proj2 (proj2 (proj2 D))).
    inversion H as [| ? ti ? ? ? T' J | ? ti ? ? T' J Tx | ? ti ? ? T' ? R | ? ti ? ? T' ? R K C1 C2 C3 ]; subst; try congruence; rewrite T in T'; injection T' as <-; cbn in *; try congruence. auto.
  Qed.
  Lemma tagged_role pm gp fd n opts : tagged ignore_unexported fd n opts -> exists i q, plays ignore_unexported pm (field_info gp fd) (Member n i q) /\ (i = true <-> n = "" \/ In "inline" opts).
  Proof.
    intros (Nh & tag & Ej & Nd & Tp). destruct (role_exists ignore_unexported pm (field_info gp fd)) as (r & R). inversion R as [K|K J|K J|tag' n' opts' i o q K J ND P I Om Q]; subst; cbn in *.
    - exfalso. apply Nh. exact K.
    - congruence.
    - congruence.
    - rewrite Ej in J. injection J as <-. apply parts_split in Tp. apply parts_split in P. rewrite Tp in P. injection P as <- <-. exists i, q. auto.
  Qed.
  Lemma named_role pm gp fd n : json_name fd n -> exists q, plays ignore_unexported pm (field_info gp fd) (Member n false q).
  Proof. intros (Ne & opts & T & Ni). destruct (tagged_role pm gp fd n opts T) as ([|] & q & R & I); [exfalso; destruct (proj1 I eq_refl); auto|eauto]. Qed.
  Lemma inline_role pm gp fd : inlines fd -> exists n q, plays ignore_unexported pm (field_info gp fd) (Member n true q).
  Proof. intros (n & opts & T & Ni). destruct (tagged_role pm gp fd n opts T) as (i & q & R & I). apply I in Ni. subst. eauto. Qed.
  Lemma holds_fits id gp d fd x : declares id gp d -> indexed gp = true -> In fd (td_fields d) -> no_comment gp fd "kubebuilder:validation:Schemaless" -> holds (fst id) (field_info gp fd) x ->
    fits (fst id) (df_type fd) (markers_of (schema_set (marks gp (df_node fd))) false) (markers_of (schema_set (marks gp (df_node fd))) true) x.
  Proof.
    intros (Ip & Id & _) X I N H. inversion H as [? ? ? M | ? ? ? M F]; subst; cbn in *; [|exact F]. exfalso. apply set_marked in M. apply M. exact (field_silent gp d fd _ (srcs_compiled _ _ Ip) X Id I N).
  Qed.

  (** What is within a value of a type is a value of the type that it has there. *)
  Lemma within_conforms root v : conforms root v -> forall w x, within root v w x -> match w with AType id => conforms id x | AnExpr pkg e => exists own its, fits pkg e own its x end.
  Proof.
    intros R w x H. induction H as [| id gp d fd n l x H IH D Rd I J N G | id gp d fd x H IH D Rd I J N | pkg n t o m u p x H IH Mt Ho | pkg t o m u p x H IH Mt Ho | pkg e x H IH | pkg sized e l x H IH B I | pkg key e l k x H IH I].
    - exact R.
    - destruct (record_clauses id gp d _ D Rd IH) as (X & _ & C & _). destruct (named_role (pkg_markers (fst id)) gp fd n J) as (q & Q).
      pose proof (C l (field_info gp fd) n q x eq_refl (List.in_map _ _ _ I) Q G) as K. apply (holds_fits id gp d fd x D X I N) in K. eauto.
    - destruct (record_clauses id gp d _ D Rd IH) as (X & _ & _ & C). destruct (inline_role (pkg_markers (fst id)) gp fd J) as (n & q & Q).
      pose proof (C (field_info gp fd) n q (List.in_map _ _ _ I) Q) as K. apply (holds_fits id gp d fd x D X I N) in K. eauto.
    - destruct IH as (own & its & F). inversion F as [? ? ? k ? ? ? ? ? B | ? ? ? k ? ? ? ? ? ? B | ? ? ? o' m' u' p' ? ? ? B Ho' Cf | | | | |]; subst.
      + destruct Mt; congruence.
      + destruct Mt; congruence.
      + assert (E : o' = o /\ m' = m) by (destruct Mt as [Mt|Mt], B as [B|B]; rewrite Mt in B; inversion B; auto). destruct E as (-> & ->). rewrite Ho in Ho'. injection Ho' as <-. exact Cf.
    - destruct IH as (own & its & F). inversion F as [| | | ? ? o' m' u' p' ? ? ? B Ho' Cf | | | |]; subst.
      assert (E : o' = o /\ m' = m) by (destruct Mt as [Mt|Mt], B as [B|B]; rewrite Mt in B; inversion B; auto). destruct E as (-> & ->). rewrite Ho in Ho'. injection Ho' as <-. exact Cf.
    - destruct IH as (own & its & F). inversion F; subst. eauto.
    - destruct IH as (own & its & F). inversion F as [| | | | ? ? ? ? ? B' | ? ? ? ? ? ? B' K Fx | |]; subst; [destruct B as [B|B]; [rewrite B' in B|]; discriminate|]. eauto.
    - destruct IH as (own & its & F). inversion F as [| | | | | | ? ? ? ? ? ? K Fx |]; subst. eauto.
  Qed.

  Lemma optional_package k : ~ known gs k DescribesType "kubebuilder:validation:Optional".
  Proof. revert k. apply not_at_types. cbn; tauto. Qed.
  (** A field that has to be there is one that the generator requires. *)
  Lemma must_required id gp d fd n : declares id gp d -> indexed gp = true -> In fd (td_fields d) -> json_name fd n -> must_be_there ignore_unexported fval json_read gs gp fd ->
    plays ignore_unexported (pkg_markers (fst id)) (field_info gp fd) (Member n false true).
  Proof.
    intros (Ip & Id & _) X I J M. pose proof (srcs_compiled _ _ Ip) as C. destruct (named_role (pkg_markers (fst id)) gp fd n J) as (q & Q).
    assert (Ab : forall a, no_comment gp fd a -> ~ marked (fi_markers (field_info gp fd)) a) by (intros a Na Ma; apply set_marked in Ma; apply Ma; exact (field_silent gp d fd a C X Id I Na)).
    assert (Pr : forall a u, said (field_comment gp (df_node fd)) DescribesField a u -> marked (fi_markers (field_info gp fd)) a) by (intros a u S; apply set_marked; apply (field_said gp fd a u C X) in S; intros E; cbn in E; rewrite E in S; destruct S).
    inversion Q as [| | |tag n' opts i o q' Hh Ej Nd Tp Ti To Rq]; subst. assert (q = true); [|subst; exact Q].
    destruct M as [u S N1 | u S N1 N2 | n2 opts2 (_ & tag2 & Ej2 & Nd2 & Tp2) No Nc Np].
    - apply Pr in S. apply Ab in N1. inversion Rq as [H|H H0|H H0 H1|H H0 H1 H2|H H0|H H0]; subst; try reflexivity; try contradiction; (exfalso; eapply H; [|exact S]; cbn; tauto).
    - apply Pr in S. apply Ab in N1, N2. inversion Rq as [H|H H0|H H0 H1|H H0 H1 H2|H H0|H H0]; subst; try reflexivity; try contradiction; (exfalso; eapply H; [|exact S]; cbn; tauto).
    - assert (Na : forall a, In a ["kubebuilder:validation:Optional"; "kubebuilder:validation:Required"; "optional"; "required"] -> ~ marked (fi_markers (field_info gp fd)) a) by (intros a Ia; apply Ab, Nc, Ia).
      inversion Rq as [H|H H0|H H0 H1|H H0 H1 H2|H H0|H H0]; subst; try reflexivity; try (exfalso; eapply Na; [|eassumption]; cbn; tauto).
      + exfalso. unfold source_pkg_markers in H0. rewrite (MapFacts.in_mget _ _ String.eqb String.eqb_eq _ _ _ srcs_nodup Ip) in H0. apply set_marked in H0. apply H0. apply (package_silent gp _ C); [apply optional_package|exact Np].
      + cbn. cbn in Ej. rewrite Ej2 in Ej. injection Ej as <-. apply parts_split in Tp. apply parts_split in Tp2. rewrite Tp in Tp2. injection Tp2 as <- <-. destruct o; [exfalso; apply No, To; reflexivity|reflexivity].
  Qed.
  Lemma conforms_obeys root v : conforms root v -> obeys ignore_unexported presets srcs fval json_read gs O root v.
  Proof.
    intros R. pose proof (within_conforms root v R) as W. split.
    - intros id x gp d n m Hw D S Px. pose proof (W _ _ Hw) as H. cbn in H. destruct (declared_known id gp d x D H) as (X & T). pose proof D as (Ip & _ & _ & P).
      apply (spec_said gp d n _ (srcs_compiled _ _ Ip) X) in S. apply set_markers in S. rewrite Px in S. exact (conforms_own id _ x P T H m S).
    - intros id l gp d fd n x mn m Hw D Rd I J G S Px. pose proof (W _ _ Hw) as H. cbn in H. destruct (record_clauses id gp d _ D Rd H) as (X & _ & C & _). pose proof D as (Ip & _ & _ & P).
      destruct (named_role (pkg_markers (fst id)) gp fd n J) as (q & Q). pose proof (C l (field_info gp fd) n q x eq_refl (List.in_map _ _ _ I) Q G) as K.
      apply (field_said gp fd mn _ (srcs_compiled _ _ Ip) X) in S. apply set_markers in S. rewrite Px in S. inversion K as [? ? ? M Ke|? ? ? M F]; subst; [apply Ke, S|eapply fits_own; [exact F|exact S]].
    - intros id l gp d fd n xs x mn m sized e Hw D Rd I J G Et B N Ix S Px. pose proof (W _ _ Hw) as H. cbn in H. destruct (record_clauses id gp d _ D Rd H) as (X & _ & C & _). pose proof D as (Ip & _ & _ & P).
      destruct (named_role (pkg_markers (fst id)) gp fd n J) as (q & Q). pose proof (C l (field_info gp fd) n q _ eq_refl (List.in_map _ _ _ I) Q G) as K. apply (holds_fits id gp d fd _ D X I N) in K. rewrite Et in K.
      apply (field_said gp fd mn _ (srcs_compiled _ _ Ip) X) in S. apply set_markers in S. rewrite Px in S.
      inversion K as [| | | | ? ? ? ? ? B' | ? ? ? ? ? ? B' Ke Fx | |]; subst; [destruct B as [B|B]; [rewrite B' in B|]; discriminate|]. eapply fits_own; [eapply Fx; [reflexivity|exact Ix]|exact S].
    - intros id l gp d fd n Hw D Rd I J M. pose proof (W _ _ Hw) as H. cbn in H. destruct (record_clauses id gp d _ D Rd H) as (X & C & _). eapply C; [reflexivity|apply List.in_map, I|exact (must_required id gp d fd n D X I J M)].
  Qed.
End Sets.
