(** * Property C59: from the comments of the sources to the roles, the manifests and the schemas. *)

From Coq Require Import List String Ascii Bool Arith ZArith QArith Lia Permutation.
From Verif Require Import GoLib GoLibFacts HelpgenSpec HelpgenProofs2 MapFacts SchemaModel MarkModel MarkSpec DocModel RegistryModel ParseSpec CollectModel CollectSpec CollectProofs CollectFile CollectProps.
From Verif Require Import TablesModel TablesSpec TablesProofs TablesProofs2 TablesProofs3 TablesProofs4 TablesProps SourceModel SourceSpec SourceProofs SourceProofs2 SourceProofs3 SourceProofs4.
From Verif Require RbacModel RbacSpec RbacProps WebhookModel WebhookSpec WebhookProps.
From Verif Require Import ParseProofs.
Import ListNotations.
Open Scope string_scope.
Open Scope list_scope.

Section Props.
Variable fval : string -> option Q.
Variable json_read : string -> option json.
Variable gs : list generator.
Variable order : file -> list (nat * list marker) -> list (nat * list marker).
Variable vorder : list (string * list tvalue) -> list (string * list tvalue).
Hypothesis order_perm : forall f l, Permutation (order f l) l.
Hypothesis vorder_perm : forall l, Permutation (vorder l) l.
Notation pkg_set := (package_set fval json_read gs order vorder).
Notation asks := (asks fval json_read).
Notation well_written := (well_written fval json_read).
Notation roles := (roles fval json_read gs order vorder).
Notation manifests := (manifests fval json_read gs order vorder).

(** ** Packages *)
(** There is always a result: the markers of the package, or the comments that are wrong, at least one. *)
Theorem source_result p : Forall parsed_file p -> (exists m, pkg_set p = Some (inl m)) \/ exists c errs, pkg_set p = Some (inr (c :: errs)).
Proof.
  intros F. rewrite (package_set_eq fval json_read gs order vorder order_perm p F). destruct (package_errors fval json_read gs order p) as [|c e]; [left|right]; eauto.
Qed.
Lemma result_inl p m : Forall parsed_file p -> pkg_set p = Some (inl m) -> m = package_result fval json_read gs order vorder p /\ package_errors fval json_read gs order p = [].
Proof.
  intros F H. rewrite (package_set_eq fval json_read gs order vorder order_perm p F) in H. destruct (package_errors fval json_read gs order p); [|discriminate]. now injection H as <-.
Qed.
(** Of a marker that is for packages, and not for types: every comment that says a value, at a place for the package,
    gives that value. *)
Theorem source_package_complete p m k n v : Forall parsed_file p -> pkg_set p = Some (inl m) -> known gs k DescribesPackage n -> (forall k', ~ known gs k' DescribesType n) ->
  asks p k n v -> In v (of_name m n).
Proof. intros F H K N A. destruct (result_inl p m F H) as (-> & _). apply (package_asks fval json_read gs order vorder order_perm vorder_perm p k n v F K N A). Qed.
(** And there are no other values. *)
Theorem source_package_sound p m n v : Forall parsed_file p -> pkg_set p = Some (inl m) -> (forall k', ~ known gs k' DescribesType n) -> In v (of_name m n) ->
  exists c text k, package_comment p c /\ comment_is c text /\ has_name n text /\ value_kind v = Some k /\ known gs k DescribesPackage n.
Proof.
  intros F H N I. destruct (result_inl p m F H) as (-> & _). apply (package_value_iff fval json_read gs order vorder order_perm vorder_perm p n v F N) in I. destruct I as (c & text & Pc & C & I).
  destruct (value_named fval json_read gs c n v I text C) as (Hn & k & Vk & K). exists c, text, k. auto.
Qed.
Theorem source_package_exact p m k n v : Forall parsed_file p -> pkg_set p = Some (inl m) -> known gs k DescribesPackage n -> (forall k', ~ known gs k' DescribesType n) -> well_written p k n ->
  (In v (of_name m n) <-> asks p k n v).
Proof. intros F H K N W. destruct (result_inl p m F H) as (-> & _). apply (package_asked fval json_read gs order vorder order_perm vorder_perm p k n v F K N W). Qed.
(** A comment with the name of such a marker is not dropped: the package has an error, or the comment has a value. *)
Theorem source_not_dropped p k n c text : Forall parsed_file p -> parameters k <> [] -> known gs k DescribesPackage n -> (forall k', ~ known gs k' DescribesType n) ->
  package_comment p c -> comment_is c text -> has_name n text ->
  match pkg_set p with Some (inl m) => exists v, value_kind v = Some k /\ In v (of_name m n) | Some (inr errs) => errs <> [] | None => False end.
Proof.
  intros F Pe K N Pc C H. rewrite (package_set_eq fval json_read gs order vorder order_perm p F).
  destruct (named_or_error fval json_read gs order order_perm vorder vorder_perm p k n c text F Pe K N Pc C H) as [E|(v & Vk & _ & I)].
  - destruct (package_errors fval json_read gs order p); [destruct E|discriminate].
  - destruct (package_errors fval json_read gs order p) as [|e l]; [exists v; auto|discriminate].
Qed.

(** ** Roles *)
Lemma rbac_known : In GenRbac gs -> known gs TRule DescribesPackage "kubebuilder:rbac". Proof. intros I. exists GenRbac. split; [exact I|apply spelled_rbac]. Qed.
Lemma rbac_package : forall k, ~ known gs k DescribesType "kubebuilder:rbac". Proof. apply not_for_types. cbn; tauto. Qed.
Notation kept := (kept fval json_read gs order vorder).
Lemma roles_eq nso o ps name : Forall (Forall parsed_file) ps -> roles nso o ps name = Some (RbacModel.generate_roles nso o (map (fun p => rules_of (kept p)) ps) name, flat_map (package_errors fval json_read gs order) ps).
Proof. intros F. unfold SourceModel.roles. rewrite (root_sets_eq fval json_read gs order vorder order_perm ps F), map_map. reflexivity. Qed.
Lemma no_errors ps : flat_map (package_errors fval json_read gs order) ps = [] -> forall p, In p ps -> package_errors fval json_read gs order p = [].
Proof. intros E p I. destruct (in_split _ _ I) as (l & l' & ->). rewrite flat_map_app in E. apply app_eq_nil in E as (_ & E). cbn in E. apply app_eq_nil in E. apply E. Qed.
Lemma kept_sound ps r : In GenRbac gs -> Forall (Forall parsed_file) ps -> (forall p, In p ps -> well_written p TRule "kubebuilder:rbac") ->
  In r (List.concat (map (fun p => rules_of (kept p)) ps)) -> rule_asked fval json_read ps r.
Proof.
  intros G F W H. apply in_concat in H as (l & Hl & H). apply in_map_iff in Hl as (p & <- & I). exists p. split; [exact I|]. apply rules_in in H. unfold SourceProofs3.kept in H.
  destruct (package_errors fval json_read gs order p); [|destruct H]. apply (package_asked fval json_read gs order vorder order_perm vorder_perm p _ _ _ (proj1 (Forall_forall _ _) F p I) (rbac_known G) rbac_package (W p I)), H.
Qed.
Lemma kept_complete ps r : In GenRbac gs -> Forall (Forall parsed_file) ps -> flat_map (package_errors fval json_read gs order) ps = [] ->
  rule_asked fval json_read ps r -> In r (List.concat (map (fun p => rules_of (kept p)) ps)).
Proof.
  intros G F E (p & I & A). apply in_concat. exists (rules_of (kept p)). split; [apply in_map_iff; now exists p|]. apply rules_in. unfold SourceProofs3.kept. rewrite (no_errors ps E p I).
  apply (package_asks fval json_read gs order vorder order_perm vorder_perm p _ _ _ (proj1 (Forall_forall _ _) F p I) (rbac_known G) rbac_package A).
Qed.

(** The tool does not panic. *)
Theorem source_roles_return nso o ps name : Forall (Forall parsed_file) ps -> exists objs errs, roles nso o ps name = Some (objs, errs).
Proof. intros F. rewrite (roles_eq nso o ps name F). eauto. Qed.
(** The roles allow nothing that no comment asks for, also when there are errors. *)
Theorem source_roles_no_escalation nso o ps name objs errs : is_order nso -> (forall ns, RbacModel.valid_orders (o ns)) -> In GenRbac gs -> Forall (Forall parsed_file) ps ->
  roles nso o ps name = Some (objs, errs) -> (forall p, In p ps -> well_written p TRule "kubebuilder:rbac") -> (forall r, rule_asked fval json_read ps r -> RbacSpec.sane r) ->
  forall ns q, RbacSpec.objs_allow objs ns q -> exists r, rule_asked fval json_read ps r /\ RbacModel.r_ns r = ns /\ RbacSpec.marker_allows r q.
Proof.
  intros N O G F E W S ns q H. rewrite (roles_eq nso o ps name F) in E. injection E as <- _.
  apply RbacProps.rbac_no_escalation in H; [|exact N|exact O|intros m I; apply S, (kept_sound ps m G F W I)]. destruct H as (r & I & En & A). exists r. split; [apply (kept_sound ps r G F W I)|auto].
Qed.
(** If no error is reported, the roles allow exactly what the comments ask for. *)
Theorem source_roles_exact nso o ps name objs : is_order nso -> (forall ns, RbacModel.valid_orders (o ns)) -> In GenRbac gs -> Forall (Forall parsed_file) ps ->
  roles nso o ps name = Some (objs, []) -> (forall p, In p ps -> well_written p TRule "kubebuilder:rbac") ->
  (forall r, rule_asked fval json_read ps r -> RbacSpec.marker_ok r) -> (forall r r', rule_asked fval json_read ps r -> rule_asked fval json_read ps r' -> RbacSpec.compatible r r') ->
  forall ns q, RbacSpec.objs_allow objs ns q <-> exists r, rule_asked fval json_read ps r /\ RbacModel.r_ns r = ns /\ RbacSpec.marker_allows r q.
Proof.
  intros N O G F E W M C ns q. rewrite (roles_eq nso o ps name F) in E. injection E as <- E.
  rewrite RbacProps.rbac_exact; [|exact N|exact O|intros m I; apply M, (kept_sound ps m G F W I)|intros a b Ia Ib; apply C; apply (kept_sound ps _ G F W); assumption].
  split; intros (r & I & En & A); exists r; (split; [|auto]); [apply (kept_sound ps r G F W I)|apply (kept_complete ps r G F E I)].
Qed.

(** ** Webhooks *)
Lemma hook_known : In GenWebhook gs -> known gs TConfig DescribesPackage "kubebuilder:webhook". Proof. intros I. exists GenWebhook. split; [exact I|apply spelled_webhook; cbn; auto]. Qed.
Lemma hook_package : forall k, ~ known gs k DescribesType "kubebuilder:webhook". Proof. apply not_for_types. cbn; tauto. Qed.
Lemma manifests_eq lower ord ps : Forall (Forall parsed_file) ps -> manifests lower ord ps = Some (WebhookModel.generate lower ord (map (fun p => hooks_of (kept p)) ps), flat_map (package_errors fval json_read gs order) ps).
Proof. intros F. unfold SourceModel.manifests. rewrite (root_sets_eq fval json_read gs order vorder order_perm ps F), map_map. reflexivity. Qed.
(** If no error is reported, every webhook that a comment asks for is in the manifests, as asked. *)
Theorem source_webhooks_complete lower ord ps files : is_order ord -> In GenWebhook gs -> Forall (Forall parsed_file) ps -> manifests lower ord ps = Some (Some files, []) ->
  forall h, hook_asked fval json_read ps h -> exists w, manifest_has files (WebhookSpec.kind_name (WebhookModel.h_mutating h)) w /\ WebhookSpec.converted lower h w.
Proof.
  intros O G F E h (p & I & A). rewrite (manifests_eq lower ord ps F) in E. injection E as E Er.
  apply (manifest_all lower ord (map (fun p => hooks_of (kept p)) ps) files (hooks_of (kept p)) h O E); [apply in_map_iff; now exists p|]. apply hooks_in. unfold SourceProofs3.kept. rewrite (no_errors ps Er p I).
  apply (package_asks fval json_read gs order vorder order_perm vorder_perm p _ _ _ (proj1 (Forall_forall _ _) F p I) (hook_known G) hook_package A).
Qed.
(** And there are no others. *)
Theorem source_webhooks_sound lower ord ps files errs : is_order ord -> In GenWebhook gs -> Forall (Forall parsed_file) ps -> manifests lower ord ps = Some (Some files, errs) ->
  (forall p, In p ps -> well_written p TConfig "kubebuilder:webhook") -> forall b w, manifest_has files (WebhookSpec.kind_name b) w ->
  exists h, hook_asked fval json_read ps h /\ WebhookModel.h_mutating h = b /\ WebhookSpec.converted lower h w.
Proof.
  intros O G F E W b w H. rewrite (manifests_eq lower ord ps F) in E. injection E as E _. destruct (manifest_iff lower ord _ files b w O E H) as (r & h & Ir & Ih & M & C). exists h. split; [|auto].
  apply in_map_iff in Ir as (p & <- & I). exists p. split; [exact I|]. apply hooks_in in Ih. unfold SourceProofs3.kept in Ih. destruct (package_errors fval json_read gs order p); [|destruct Ih].
  apply (package_asked fval json_read gs order vorder order_perm vorder_perm p _ _ _ (proj1 (Forall_forall _ _) F p I) (hook_known G) hook_package (W p I)), Ih.
Qed.

(** ** Fields and types *)
(** A comment in the Godoc of a field, or in the closest group above it, that says a value of a marker for fields: the
    field has the value. *)
Theorem source_field_complete p f top h m k n c text v : Forall parsed_file p -> distinct_nodes p -> In f p -> In (Enter top h) (events f) -> h_kind h = KField ->
  node_set fval json_read gs order p (h_id h) = Some (inl m) -> node_comment f h c -> comment_is c text -> known gs k DescribesField n -> says fval json_read k n text v -> In v (of_name m n).
Proof.
  intros F D I Ih K H Nc C Kn S. destruct (field_values fval json_read gs order order_perm p f top h m n F D I Ih K H) as (_ & ->).
  destruct (comment_own f h c (proj1 (proj1 (comment_is_iff c text) C)) Nc) as (b & Io). apply in_flat_map. exists (mkMarker c b). split; [exact Io|].
  rewrite (proj1 (comment_read fval json_read gs k DescribesField n text v (mkMarker c b) Kn S C)). now left.
Qed.
Theorem source_field_sound p f top h m n v : Forall parsed_file p -> distinct_nodes p -> In f p -> In (Enter top h) (events f) -> h_kind h = KField ->
  node_set fval json_read gs order p (h_id h) = Some (inl m) -> In v (of_name m n) ->
  exists c text k, node_comment f h c /\ comment_is c text /\ has_name n text /\ value_kind v = Some k /\ known gs k DescribesField n.
Proof.
  intros F D I Ih K H Iv. destruct (field_values fval json_read gs order order_perm p f top h m n F D I Ih K H) as (_ & E). rewrite E in Iv. apply in_flat_map in Iv as ([c b] & Im & Iv).
  destruct (own_comment f h c b Im) as (Mk & Nc). destruct (collected_text c Mk) as (text & C). destruct (marker_value_sound fval json_read gs DescribesField n v (mkMarker c b) Iv) as (k & Vk & Kn & a & text' & Et & Hn).
  exists c, text, k. split; [exact Nc|]. split; [exact C|]. apply comment_is_iff in C as (_ & C). rewrite (same_text c b false), C in Et. injection Et as _ <-. auto.
Qed.
(** From there to the schema of the field: reported, or there. *)
Theorem source_field_applied p f top h m k n c text sm o srt s : Forall parsed_file p -> distinct_nodes p -> In f p -> In (Enter top h) (events f) -> h_kind h = KField ->
  node_set fval json_read gs order p (h_id h) = Some (inl m) -> node_comment f h c -> comment_is c text -> known gs k DescribesField n -> says fval json_read k n text (TvSchema sm) ->
  is_order o -> sorts srt -> one_each (schema_set m) -> let r := apply_markers o srt (schema_set m) s in
  In n (snd r) \/ (if has_prefix items_prefix n then exists it more, s_items (fst r) = Some (Some it, more) /\ carries sm (s_kw it) else carries sm (s_kw (fst r))).
Proof.
  intros F D I Ih K H Nc C Kn S O Sr Oe. destruct (field_values fval json_read gs order order_perm p f top h m n F D I Ih K H) as (E & _). rewrite E in Oe |- *.
  destruct (comment_own f h c (proj1 (proj1 (comment_is_iff c text) C)) Nc) as (b & Io). exact (marker_comment_applied fval json_read o srt gs DescribesField _ s (mkMarker c b) k n text sm O Sr Oe Io Kn S C).
Qed.
(** The same for a type, and a marker for types. *)
Theorem source_type_complete p f before top h after m k n c text v : Forall parsed_file p -> distinct_nodes p -> In f p -> events f = before ++ Enter top h :: after -> h_kind h = KType ->
  node_set fval json_read gs order p (h_id h) = Some (inl m) -> type_comment f before h c -> comment_is c text -> known gs k DescribesType n -> says fval json_read k n text v -> In v (of_name m n).
Proof.
  intros F D I Ih K H Nc C Kn S. destruct (type_values fval json_read gs order order_perm p f before top h after m n F D I Ih K H) as (_ & ->).
  assert (Mk := proj1 (proj1 (comment_is_iff c text) C)).
  assert (Io : exists b, In (mkMarker c b) (of_decl (f_groups f) (events f) (open_decl before) ++ own (f_groups f) (events f) h)).
  { destruct Nc as [Nc|(d & Eo & Nc)]; destruct (comment_own f _ c Mk Nc) as (b & Io); exists b; apply in_or_app; [right; exact Io|left; rewrite Eo; exact Io]. }
  destruct Io as (b & Io). apply in_flat_map. exists (mkMarker c b). destruct (comment_read fval json_read gs k DescribesType n text v (mkMarker c b) Kn S C) as (Ev & _). rewrite Ev. split; [|now left].
  apply filter_In. split; [exact Io|]. unfold misplaced, CollectSpec.known. unfold values_of in Ev. destruct (lookup payload (registry_of gs) (marker_text (mkMarker c b)) DescribesType); [|discriminate].
  cbn [negb]. rewrite andb_false_r. reflexivity.
Qed.
Theorem source_type_sound p f before top h after m n v : Forall parsed_file p -> distinct_nodes p -> In f p -> events f = before ++ Enter top h :: after -> h_kind h = KType ->
  node_set fval json_read gs order p (h_id h) = Some (inl m) -> In v (of_name m n) ->
  exists c text k, type_comment f before h c /\ comment_is c text /\ has_name n text /\ value_kind v = Some k /\ known gs k DescribesType n.
Proof.
  intros F D I Ih K H Iv. destruct (type_values fval json_read gs order order_perm p f before top h after m n F D I Ih K H) as (_ & E). rewrite E in Iv. apply in_flat_map in Iv as ([c b] & Im & Iv).
  apply filter_In in Im as (Im & _). assert (Q : is_marker_comment (c_text c) = true /\ type_comment f before h c).
  { apply in_app_or in Im as [Im|Im].
    - unfold of_decl in Im. destruct (open_decl before) as [d|] eqn:Eo; [|destruct Im]. destruct (own_comment f d c b Im) as (Mk & Nc). split; [exact Mk|]. right. now exists d.
    - destruct (own_comment f h c b Im) as (Mk & Nc). split; [exact Mk|]. now left. }
  destruct Q as (Mk & Nc). destruct (collected_text c Mk) as (text & C). destruct (marker_value_sound fval json_read gs DescribesType n v (mkMarker c b) Iv) as (k & Vk & Kn & a & text' & Et & Hn).
  exists c, text, k. split; [exact Nc|]. split; [exact C|]. apply comment_is_iff in C as (_ & C). rewrite (same_text c b false), C in Et. injection Et as _ <-. auto.
Qed.
End Props.
Print Assumptions source_result.
Print Assumptions source_package_complete.
Print Assumptions source_package_sound.
Print Assumptions source_package_exact.
Print Assumptions source_not_dropped.
Print Assumptions source_roles_return.
Print Assumptions source_roles_no_escalation.
Print Assumptions source_roles_exact.
Print Assumptions source_webhooks_complete.
Print Assumptions source_webhooks_sound.
Print Assumptions source_field_complete.
Print Assumptions source_field_sound.
Print Assumptions source_field_applied.
Print Assumptions source_type_complete.
Print Assumptions source_type_sound.

(** ** The iterations over maps *)
(** The roles are the same text in whatever order the maps are gone through; so are the errors, up to their order. *)
Theorem source_roles_deterministic fval json_read gs order order' vorder vorder' nso nso' o o' ps name objs errs objs' errs' :
  (forall f l, Permutation (order f l) l) -> (forall f l, Permutation (order' f l) l) -> (forall l, Permutation (vorder l) l) -> (forall l, Permutation (vorder' l) l) ->
  is_order nso -> is_order nso' -> (forall ns, RbacModel.valid_orders (o ns)) -> (forall ns, RbacModel.valid_orders (o' ns)) -> In GenRbac gs -> Forall (Forall parsed_file) ps ->
  (forall p, In p ps -> well_written fval json_read p TRule "kubebuilder:rbac") ->
  (forall r, rule_asked fval json_read ps r -> RbacSpec.marker_ok r) -> (forall r r', rule_asked fval json_read ps r -> rule_asked fval json_read ps r' -> RbacSpec.compatible r r') ->
  roles fval json_read gs order vorder nso o ps name = Some (objs, errs) -> roles fval json_read gs order' vorder' nso' o' ps name = Some (objs', errs') -> objs = objs' /\ Permutation errs errs'.
Proof.
  intros P P' Q Q' N N' O O' G F W M C E E'. rewrite (roles_eq fval json_read gs order vorder P nso o ps name F) in E. rewrite (roles_eq fval json_read gs order' vorder' P' nso' o' ps name F) in E'.
  injection E as <- <-. injection E' as <- <-. assert (F' := proj1 (Forall_forall _ _) F). split.
  - apply RbacProps.rbac_deterministic; try assumption.
    + intros m I. apply M, (kept_sound fval json_read gs order vorder P Q ps m G F W I).
    + intros a b Ia Ib. apply C; apply (kept_sound fval json_read gs order vorder P Q ps _ G F W); assumption.
    + rewrite <- !flat_map_concat_map. apply flat_perm. intros p I. unfold rules_of. apply flat_map_perm, kept_perm; auto.
  - apply flat_perm. intros p I. apply package_errors_perm; auto.
Qed.
Print Assumptions source_roles_deterministic.

(** ** A package
<<
// +kubebuilder:rbac:groups=`apps`,resources=`deployments`,verbs=`get`

package x

// +kubebuilder:rbac:urls=/healthz,verbs=get
// +kubebuilder:validation:Pattern=a

// T is a type.
type T struct {
	// +kubebuilder:validation:MaxLength=5
	A string
}

// +kubebuilder:rbac:groups=core,resources=pods,verbs=watch
>> *)
Definition rule_text : string := "kubebuilder:rbac:groups=`apps`,resources=`deployments`,verbs=`get`".
Definition demo_A : header := mkHeader 15 KField 140 145 (Some 130) None.
Definition demo_file (above doc field last : string) : file :=
  mkFile [ mkGroup 20 [mkComment 1 ("// +" ++ rule_text)]; mkGroup 70 [mkComment 2 above; mkComment 3 "// +kubebuilder:validation:Pattern=a"]; mkGroup 90 [mkComment 4 doc];
           mkGroup 130 [mkComment 5 field]; mkGroup 200 [mkComment 6 last] ]
         (mkHeader 1 KFile 40 190 None None)
         [ Node (mkHeader 5 (KDecl false true) 100 170 (Some 90) None)
             [ cg 6 90 99;
               Node (mkHeader 10 KType 105 170 None None)
                 [ Node (other 11 105 106) []; Node (other 12 107 170) [ Node (other 13 114 170) [ Node demo_A [ cg 16 130 139; Node (other 18 140 141) [] ] ] ] ] ] ].
Definition demo : file := demo_file "// +kubebuilder:rbac:urls=/healthz,verbs=get" "// T is a type." "// +kubebuilder:validation:MaxLength=5" "// +kubebuilder:rbac:groups=core,resources=pods,verbs=watch".
Lemma demo_parsed a d f l : parsed_file (demo_file a d f l).
Proof. split; [reflexivity|]. apply well_formedb_sound. vm_compute. reflexivity. Qed.
Definition demo_roles (gs : list generator) (ps : list package) :=
  roles no_floats no_json gs (fun _ l => l) (fun l => l) (fun l => l) (fun _ => RbacProps.id_orders) ps "manager-role".
Definition all_gens : list generator := [GenCrd; GenRbac; GenWebhook; GenObject].

Example source_demo : demo_roles all_gens [[demo]] =
  Some ([RbacModel.ClusterRole "manager-role"
          [RbacModel.mkPolicy [] ["get"] [] [] ["/healthz"]; RbacModel.mkPolicy [""] ["watch"] ["pods"] [] []; RbacModel.mkPolicy ["apps"] ["get"] ["deployments"] [] []]], []).
Proof. vm_compute. reflexivity. Qed.
Example source_demo_field : node_set no_floats no_json all_gens (fun _ l => l) [demo] 15 = Some (inl [("kubebuilder:validation:MaxLength", [TvSchema (MMaxLength 5)])]) /\ node_comment demo demo_A (mkComment 5 "// +kubebuilder:validation:MaxLength=5") /\ distinct_nodes [demo].
Proof.
  split; [vm_compute; reflexivity|]. split; [exists (mkGroup 130 [mkComment 5 "// +kubebuilder:validation:MaxLength=5"]); split; [now left|right; vm_compute; now left]|].
  unfold distinct_nodes. vm_compute. repeat constructor; cbn; intuition discriminate.
Qed.
Definition demo_rule : RbacModel.rule := RbacModel.mkRule ["apps"] ["deployments"] [] ["get"] [] "".
Lemma raw_list s : forallb (fun a => negb (Ascii.eqb a "`") && negb (Nat.eqb (nat_of_ascii a) 13)) (list_ascii_of_string s) = true ->
  denotes (float_ok no_floats) (ParseModel.ASlice ParseModel.AStr) ("`" ++ s ++ "`") (ParseModel.VList [ParseModel.VStr s]) false.
Proof.
  intros H. apply denotes_legacy, legacy_last, flat_typed; [now left|]. apply denotes_str, text_raw. intros x a y ->. rewrite forallb_forall in H. specialize (H a).
  assert (Ia : In a (list_ascii_of_string (x ++ String a y))) by (clear; induction x; cbn; auto).
  apply H, andb_true_iff in Ia as (H1 & H2). apply negb_true_iff in H1, H2. apply Nat.eqb_neq in H2. split; [intros ->; discriminate|exact H2].
Qed.
Lemma rule_text_says : says no_floats no_json TRule "kubebuilder:rbac" rule_text (TvRule demo_rule).
Proof.
  apply (says_args no_floats no_json TRule "kubebuilder:rbac" "groups=`apps`,resources=`deployments`,verbs=`get`"
      [("groups", ParseModel.VList [ParseModel.VStr "apps"]); ("resources", ParseModel.VList [ParseModel.VStr "deployments"]); ("verbs", ParseModel.VList [ParseModel.VStr "get"])]).
  - assert (B : forall s, before "" s) by (intros s; split; [apply spaces_nil|reflexivity]). assert (Af : after false "") by (split; [apply spaces_nil|reflexivity]).
      apply (args_more no_floats _ "" "groups" "" "" "`apps`" "" (ParseModel.ASlice ParseModel.AStr) false _ false); [apply spaces_nil|apply spaces_nil|cbn; tauto|apply B|apply (raw_list "apps"); reflexivity|exact Af|].
      apply (args_more no_floats _ "" "resources" "" "" "`deployments`" "" (ParseModel.ASlice ParseModel.AStr) false _ false); [apply spaces_nil|apply spaces_nil|cbn; tauto|apply B|apply (raw_list "deployments"); reflexivity|exact Af|].
      apply (args_last no_floats _ "" "verbs" "" "" "`get`" (ParseModel.ASlice ParseModel.AStr) true _ false); [apply spaces_nil|apply spaces_nil|cbn; tauto|apply B|apply (raw_list "get"); reflexivity].
  - intros n a H. cbn in H. repeat (destruct H as [H|H]; [first [discriminate H|injection H as <- _; cbn; tauto]|]). contradiction.
  - assert (L : forall (l : list (string * ParseModel.value)) n x y v, l = x ++ (n, v) :: y -> ~ In n (map fst y) -> last_value l n v) by (intros l n x y v -> H; exists x, y; auto).
      apply (named_rule _ ["apps"] ["deployments"] [] ["get"] [] "").
    + left. apply (L _ _ []  _ _ eq_refl). cbn. intuition discriminate.
    + left. apply (L _ _ [_] _ _ eq_refl). cbn. intuition discriminate.
    + right. split; [cbn; intuition discriminate|reflexivity].
    + left. apply (L _ _ [_; _] _ _ eq_refl). cbn. tauto.
    + right. split; [cbn; intuition discriminate|reflexivity].
    + right. split; [cbn; intuition discriminate|reflexivity].
Qed.
(** The comment says the rule, and stands at a place for the package. *)
Example source_demo_asks : asks no_floats no_json [demo] TRule "kubebuilder:rbac" (TvRule demo_rule).
Proof.
  exists (mkComment 1 ("// +" ++ rule_text)), rule_text. split; [|split].
  - exists demo, (mkGroup 20 [mkComment 1 ("// +" ++ rule_text)]). split; [now left|]. split; [now left|]. split; [now left|]. vm_compute. right. split; [now left|exact I].
  - apply comment_is_iff. split; vm_compute; reflexivity.
  - exact rule_text_says.
Qed.
Example source_demo_rule : RbacSpec.marker_ok demo_rule /\ RbacSpec.compatible demo_rule demo_rule.
Proof. split; [RbacProps.solve_sane|]. intros _. split; intros; intros x; tauto. Qed.

(** A package for which everything that [source_roles_exact] asks for holds. *)
Definition plain : file := demo_file "" "" "" "".
Lemma plain_comments c text : package_comment [plain] c -> comment_is c text -> has_name "kubebuilder:rbac" text -> text = rule_text.
Proof.
  intros (f & g & [<-|[]] & Ig & Ic & _) C H. apply comment_is_iff in C as (_ & C). cbn in Ig.
  repeat destruct Ig as [<-|Ig]; [..|contradiction]; cbn in Ic; repeat destruct Ic as [<-|Ic]; try contradiction; vm_compute in C; try discriminate C; injection C as <-; [reflexivity|].
  exfalso. destruct H as [H|[(r & H)|(a & r & H & _)]]; discriminate.
Qed.
Example source_plain_meets : well_written no_floats no_json [plain] TRule "kubebuilder:rbac" /\ (forall r, rule_asked no_floats no_json [[plain]] r -> r = demo_rule) /\
  exists objs, demo_roles all_gens [[plain]] = Some (objs, []) /\ objs <> [].
Proof.
  split; [|split].
  - intros c text Pc C H. rewrite (plain_comments c text Pc C H). eexists. exact rule_text_says.
  - intros r (p & [<-|[]] & c & text & Pc & C & S). assert (V := value_said no_floats no_json all_gens c text TRule "kubebuilder:rbac" (TvRule r) ltac:(apply rbac_known; cbn; tauto) C S).
    assert (I : In (TvRule r) (values_of payload tvalue (registry_of all_gens) (parse_value no_floats no_json) DescribesPackage "kubebuilder:rbac" (mkMarker c false))) by (rewrite V; now left).
    assert (E := plain_comments c text Pc C (proj1 (value_named no_floats no_json all_gens c _ _ I text C))). subst text.
    rewrite (value_said no_floats no_json all_gens c rule_text TRule "kubebuilder:rbac" (TvRule demo_rule) ltac:(apply rbac_known; cbn; tauto) C rule_text_says) in V. now injection V as <-.
  - eexists. split; [vm_compute; reflexivity|discriminate].
Qed.

(** ** What does not hold *)
(** One comment that is wrong, for another generator, and no rule of the package is in the roles, which are written all the same. *)
Definition broken : file := demo_file "// +kubebuilder:rbac:urls=/healthz,verbs=get" "// T is a type." "// +kubebuilder:validation:MaxLength=five" "".
Theorem source_error_drops_refuted : parsed_file broken /\
  (exists objs, demo_roles [GenRbac] [[broken]] = Some (objs, []) /\ objs <> []) /\
  demo_roles [GenRbac; GenCrd] [[broken]] = Some ([], [mkComment 5 "// +kubebuilder:validation:MaxLength=five"]).
Proof. split; [apply demo_parsed|]. split; [eexists; split; [vm_compute; reflexivity|discriminate]|vm_compute; reflexivity]. Qed.
Print Assumptions source_error_drops_refuted.
(** A rule in the Godoc of a type, or of a field, is dropped without an error. *)
Definition in_doc : file := demo_file "" "// +kubebuilder:rbac:groups=core,resources=pods,verbs=watch" "// +kubebuilder:rbac:groups=core,resources=nodes,verbs=watch" "".
Theorem source_godoc_refuted : parsed_file in_doc /\
  demo_roles all_gens [[in_doc]] = Some ([RbacModel.ClusterRole "manager-role" [RbacModel.mkPolicy ["apps"] ["get"] ["deployments"] [] []]], []).
Proof. split; [apply demo_parsed|vm_compute; reflexivity]. Qed.
Print Assumptions source_godoc_refuted.
(** Two webhooks with the same name, each above a type: their order depends on that of an iteration over a map. *)
Definition hook_text (path : string) : string := ("// +kubebuilder:webhook:mutating=true,failurePolicy=fail,sideEffects=None,groups=g,resources=r,verbs=create,versions=v1,name=n,admissionReviewVersions=v1,path=" ++ path)%string.
Definition two_hooks : file :=
  mkFile [ mkGroup 50 [mkComment 1 (hook_text "/one")]; mkGroup 100 [mkComment 2 (hook_text "/two")] ] two_root two_cs.
Definition demo_paths (order : list (nat * list marker) -> list (nat * list marker)) : option (list (list WebhookModel.client)) :=
  match manifests no_floats no_json all_gens (fun _ => order) (fun l => l) WebhookProps.lower_demo (fun l => l) [[two_hooks]] with
  | Some (Some files, []) => Some (map (fun f => flat_map (fun o => map WebhookModel.w_client (WebhookModel.o_webhooks o)) (snd f)) files)
  | _ => None
  end.
Theorem source_webhook_order_refuted : parsed_file two_hooks /\ exists x y, x <> y /\ demo_paths (fun l => l) = Some [[x; y]] /\ demo_paths (fun l => rev l) = Some [[y; x]].
Proof.
  split; [split; [reflexivity|apply well_formedb_sound; vm_compute; reflexivity]|]. eexists _, _. split; [|split; vm_compute; reflexivity]. discriminate.
Qed.
Print Assumptions source_webhook_order_refuted.
