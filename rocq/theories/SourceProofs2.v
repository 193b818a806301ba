(** * Proofs for C59: from the markers of a package to their values. *)

From Coq Require Import List String Ascii Bool Arith QArith Lia Permutation.
From Verif Require Import GoLib GoLibFacts MapFacts SchemaModel DocModel RegistryModel RegistryProofs ParseModel HelpgenSpec HelpgenProofs2 CollectModel CollectSpec CollectProofs CollectFile CollectProps.
From Verif Require Import TablesModel TablesSpec TablesProofs TablesProofs2 TablesProofs3 TablesProofs4 SourceModel SourceSpec SourceProofs.
From Verif Require RbacModel WebhookModel.
Import ListNotations.
Open Scope string_scope.
Open Scope list_scope.

(** ** A marker of packages only *)
Definition not_below (d d' : def payload) : bool :=
  match d_target d, d_target d' with
  | DescribesPackage, DescribesType => String.eqb (d_name d) "k8s:deepcopy-gen" || negb (has_prefix (d_name d ++ ":") (d_name d'))
  | _, _ => true
  end.
Lemma not_below_names gs d d' a : In d (definitions gs) -> In d' (definitions gs) -> d_target d = DescribesPackage -> d_target d' = DescribesType ->
  (forall k, ~ known gs k DescribesType (d_name d)) -> d_name d' <> (d_name d ++ ":" ++ a)%string.
Proof.
  intros H H' T T' N E. assert (Kd : known gs (p_kind (d_payload d)) DescribesPackage (d_name d)) by (apply known_definition; exists d; auto).
  apply in_definitions in H as (g & Hg & H), H' as (g' & Hg' & H').
  assert (F := each_pair not_below ltac:(vm_compute; reflexivity) g g' d d' H H'). unfold not_below in F. rewrite T, T', E in F.
  rewrite <- (str_app_assoc (d_name d) ":" a), has_prefix_app in F. cbn in F. rewrite orb_false_r in F. apply String.eqb_eq in F.
  destruct Kd as (g0 & G0 & S). rewrite F in S. apply (N TRaw). exists GenObject. split.
  - inversion S as [? ? ? ? ? C| |? ? I|? ? ? I|? ? ? I]; subst; [| |exact G0|].
    + exfalso. inversion C as [? ? ? ? ? E0|? ? ? ? ? E0|? ? ? I0|? ? I0|? ? I0|? ? I0]; subst; cbn in *; try discriminate; repeat destruct I0 as [I0|I0]; try discriminate; contradiction.
    + exfalso. cbn in I. repeat destruct I as [I|I]; try discriminate; contradiction.
    + exfalso. cbn in I. repeat destruct I as [I|I]; try discriminate; contradiction.
  - rewrite F. apply spelled_object. cbn. tauto.
Qed.
Lemma package_only gs text d : lookup payload (registry_of gs) ("+" ++ text) DescribesPackage = Some d -> (forall k, ~ known gs k DescribesType (d_name d)) ->
  lookup payload (registry_of gs) ("+" ++ text) DescribesType = None.
Proof.
  intros L N. destruct (lookup payload (registry_of gs) ("+" ++ text) DescribesType) as [d'|] eqn:L'; [|reflexivity]. exfalso.
  destruct (found_heads gs text _ d L) as (I & T & H), (found_heads gs text _ d' L') as (I' & T' & H').
  assert (Same : d_name d' = d_name d -> False) by (intros E; apply (N (p_kind (d_payload d'))); apply known_definition; exists d'; auto).
  destruct H as [E|(a & E & A1 & A2)], H' as [E'|(a' & E' & A1' & A2')].
  - apply Same. congruence.
  - apply (apart_names gs d d' a' I I' T T'). congruence.
  - apply (not_below_names gs d d' a I I' T T' N). congruence.
  - apply Same. symmetry. apply (colon_inj _ a _ a' A2 A2'). congruence.
Qed.

Lemma comment_is_iff c text : comment_is c text <-> is_marker_comment (c_text c) = true /\ marker_text (mkMarker c false) = ("+" ++ text)%string.
Proof.
  unfold comment_is. split.
  - intros H. split; [apply (comment_collected _ _ H)|apply (comment_text _ _ H)].
  - unfold is_marker_comment, marker_text. cbn [m_comment]. intros (H & E). apply andb_true_iff in H as (H & _). apply has_prefix_spec in H as (body & H). exists body. cbn [m_comment].
    split; [exact H|]. rewrite H in E. apply trimmed_iff. exact E.
Qed.
Lemma collected_text c : is_marker_comment (c_text c) = true -> exists text, comment_is c text.
Proof.
  intros M. unfold is_marker_comment in M. assert (M' := M). apply andb_true_iff in M' as (H & E). destruct (trim_space (str_drop 2 (c_text c))) as [|a text] eqn:T; [discriminate|].
  apply Ascii.eqb_eq in E. subst a. exists text. apply comment_is_iff. unfold is_marker_comment. rewrite T. split; [rewrite H; reflexivity|]. exact T.
Qed.
Lemma same_text c d d' : marker_text (mkMarker c d) = marker_text (mkMarker c d'). Proof. reflexivity. Qed.

(** ** Values by node *)
Lemma mget_map {V W} (g : nat * V -> W) l k : mget Nat.eqb (map (fun kv => (fst kv, g kv)) l) k = match mget Nat.eqb l k with Some v => Some (g (k, v)) | None => None end.
Proof.
  induction l as [|[k' v] l IH]; [reflexivity|]. cbn. destruct (Nat.eqb_spec k k') as [->|]; [reflexivity|exact IH].
Qed.
Lemma target_entered f top h : parsed_file f -> In (Enter top h) (events f) ->
  target_of (events f) (h_id h) = match h_kind h with KFile => DescribesPackage | KField => DescribesField | _ => DescribesType end.
Proof.
  intros (Rf & W) I. unfold target_of. destruct (find _ (events f)) as [e|] eqn:F.
  - apply find_some in F. destruct F as (Ie & F). destruct e as [t x|x]; [|discriminate]. apply Nat.eqb_eq in F.
    assert (E := same_header _ _ W t x top h Ie I F). injection E as _ ->. reflexivity.
  - exfalso. apply (find_none _ _ F) in I. rewrite Nat.eqb_refl in I. discriminate.
Qed.

Section Package.
Variable fval : string -> option Q.
Variable json_read : string -> option json.
Variable gs : list generator.
Notation reg := (registry_of gs).
Notation read := (parse_value fval json_read).
Notation values_at t ms := (values payload reg tvalue read t ms [] []).
Notation vals_of := (values_of payload tvalue reg read).
Notation bad := (unparsed payload tvalue reg read).

Section Orders.
Variable order : file -> list (nat * list marker) -> list (nat * list marker).
Variable vorder : list (string * list tvalue) -> list (string * list tvalue).
Hypothesis order_perm : forall f l, Permutation (order f l) l.
Hypothesis vorder_perm : forall l, Permutation (vorder l) l.
Notation node_vals := (node_values fval json_read gs order).
Notation all_vals := (all_values fval json_read gs order).
Notation pkg_set := (package_set fval json_read gs order vorder).

Definition nodes_of (f : file) : list (nat * list marker) := match file_markers payload reg (order f) (f_groups f) (f_node f) with Some r => r | None => [] end.
Definition roots_of (f : file) : list marker := root_list f (nodes_of f).
Definition node_read (f : file) (kv : nat * list marker) : mvals * list comment := values_at (target_of (events f) (fst kv)) (snd kv).

Lemma nodes_some f : parsed_file f -> file_markers payload reg (order f) (f_groups f) (f_node f) = Some (nodes_of f).
Proof. intros (Rf & W). unfold nodes_of, f_node. destruct (collect_returns payload reg (order f) (order_perm f) (f_groups f) (f_root f) (f_children f) Rf W) as (r & ->). reflexivity. Qed.

Lemma node_values_eq f : parsed_file f -> node_vals f = Some (map (fun kv => (fst kv, fst (node_read f kv))) (nodes_of f), flat_map (fun kv => snd (node_read f kv)) (nodes_of f)).
Proof. intros P. unfold node_values. rewrite (nodes_some f P). reflexivity. Qed.

Definition file_values (f : file) : list (nat * mvals) := map (fun kv => (fst kv, fst (node_read f kv))) (nodes_of f).
Definition file_errors (f : file) : list comment := flat_map (fun kv => snd (node_read f kv)) (nodes_of f).
Lemma all_values_eq p : Forall parsed_file p -> all_vals p = Some (map file_values p, flat_map file_errors p).
Proof.
  induction 1 as [|f p P _ IH]; [reflexivity|]. cbn [all_values]. rewrite (node_values_eq f P), IH. reflexivity.
Qed.

(** What the package gets of one file *)
Lemma root_values f : parsed_file f -> (match mget Nat.eqb (file_values f) (h_id (f_root f)) with Some m => m | None => [] end) = fst (values_at DescribesPackage (roots_of f)).
Proof.
  intros P. unfold file_values. rewrite (mget_map (fun kv => fst (node_read f kv))). unfold roots_of, root_list, node_read. destruct (mget Nat.eqb (nodes_of f) (h_id (f_root f))) as [l|]; [|reflexivity].
  cbn [fst snd]. rewrite (target_entered f true (f_root f) P); [|now left]. destruct P as (-> & _). reflexivity.
Qed.

Definition package_errors (p : package) : list comment := flat_map file_errors p.
Definition package_result (p : package) : mvals := package_values tvalue vorder (map (fun f => fst (values_at DescribesPackage (roots_of f))) p) [].
Lemma package_set_eq p : Forall parsed_file p -> pkg_set p = Some (match package_errors p with [] => inl (package_result p) | e => inr e end).
Proof.
  intros F. unfold package_set. rewrite (all_values_eq p F). unfold package_errors. destruct (flat_map file_errors p) eqn:E; [|reflexivity]. do 2 f_equal. unfold package_result. f_equal.
  clear E. induction F as [|f p P F IH]; [reflexivity|]. cbn [map combine]. f_equal; [exact (root_values f P)|exact IH].
Qed.

Lemma result_named p n : of_name (package_result p) n = flat_map (fun f => flat_map (vals_of DescribesPackage n) (roots_of f)) p.
Proof.
  unfold package_result. change (of_name ?m n) with (named tvalue m n). rewrite (package_in_order tvalue vorder _ n vorder_perm).
  - rewrite flat_map_concat_map, map_map, <- flat_map_concat_map. apply flat_map_ext. intros f. apply (proj1 (values_in_order payload tvalue reg read DescribesPackage (roots_of f) n)).
  - apply Forall_forall. intros m H. apply in_map_iff in H. destruct H as (f & <- & _). apply values_nodup.
Qed.

(** The values of a marker that packages know and types do not *)
Lemma package_value_iff p n v : Forall parsed_file p -> (forall k, ~ known gs k DescribesType n) ->
  (In v (of_name (package_result p) n) <-> exists c text, package_comment p c /\ comment_is c text /\ In v (vals_of DescribesPackage n (mkMarker c false))).
Proof.
  intros F N. rewrite result_named, in_flat_map. rewrite Forall_forall in F.
  assert (Mi : forall c text, comment_is c text -> In v (vals_of DescribesPackage n (mkMarker c false)) -> misplaced reg (mkMarker c false) = true).
  { intros c text C H. unfold values_of in H. apply comment_is_iff in C. destruct C as (_ & C). unfold misplaced, CollectSpec.known. rewrite C in H |- *. destruct (lookup payload reg ("+" ++ text) DescribesPackage) as [d|] eqn:L; [|destruct H].
    destruct (String.eqb_spec (d_name d) n) as [<-|]; [|destruct H]. rewrite (package_only gs text d L N). reflexivity. }
  split.
  - intros (f & If & H). apply in_flat_map in H. destruct H as ([c d] & Im & H). assert (H' : In v (vals_of DescribesPackage n (mkMarker c false))) by exact H.
    assert (P := F f If). assert (M : is_marker_comment (c_text c) = true).
    { unfold roots_of, root_list in Im. destruct (mget Nat.eqb (nodes_of f) (h_id (f_root f))) as [l|] eqn:G; [|destruct Im]. destruct P as (Rf & W).
      assert (Q := proj1 (collected_iff payload reg (order f) (order_perm f) (f_groups f) (f_root f) (f_children f) Rf W (nodes_of f) (nodes_some f (conj Rf W)) c d)). apply Q.
      exists (h_id (f_root f)), l. split; [apply (mget_in _ _ _ Nat.eqb_eq), G|exact Im]. }
    destruct (collected_text c M) as (text & C). exists c, text. split; [|auto]. assert (Mc := Mi c text C H').
    destruct (proj1 (root_iff payload reg (order f) (order_perm f) f P (nodes_of f) (nodes_some f P) c Mc) (ex_intro _ d Im)) as (_ & g & Ig & Ic & At). exists f, g. auto.
  - intros (c & text & (f & g & If & Ig & Ic & At) & C & H). exists f. split; [exact If|]. assert (P := F f If). assert (Mc := Mi c text C H).
    destruct (proj2 (root_iff payload reg (order f) (order_perm f) f P (nodes_of f) (nodes_some f P) c Mc)) as (d & Im).
    { split; [apply (comment_is_iff c text), C|]. now exists g. }
    apply in_flat_map. exists (mkMarker c d). split; [exact Im|exact H].
Qed.

(** Two texts of one comment are the same *)
Lemma value_said c text k n v : known gs k DescribesPackage n -> comment_is c text -> says fval json_read k n text v -> vals_of DescribesPackage n (mkMarker c false) = [v].
Proof. intros K C S. apply (comment_read fval json_read gs k DescribesPackage n text v (mkMarker c false) K S C). Qed.
Lemma value_named c n v : In v (vals_of DescribesPackage n (mkMarker c false)) -> forall text, comment_is c text -> has_name n text /\ exists k, value_kind v = Some k /\ known gs k DescribesPackage n.
Proof.
  intros H text C. apply comment_is_iff in C as (_ & C). destruct (value_found fval json_read gs DescribesPackage n v (mkMarker c false) H) as (k & Vk & K & a & Q). split; [|now exists k]. rewrite C in Q.
  destruct Q as [E|[(rest & E)|(b & rest & E & Hb)]]; injection E as _ E; [left; exact E|right; left; exists rest; exact E|right; right; exists b, rest; auto].
Qed.
Lemma package_asks p k n v : Forall parsed_file p -> known gs k DescribesPackage n -> (forall k, ~ known gs k DescribesType n) -> asks fval json_read p k n v -> In v (of_name (package_result p) n).
Proof.
  intros F K N (c & text & Pc & C & S). apply (package_value_iff p n v F N). exists c, text. split; [exact Pc|]. split; [exact C|]. rewrite (value_said c text k n v K C S). now left.
Qed.
Lemma package_asked p k n v : Forall parsed_file p -> known gs k DescribesPackage n -> (forall k, ~ known gs k DescribesType n) -> well_written fval json_read p k n ->
  (In v (of_name (package_result p) n) <-> asks fval json_read p k n v).
Proof.
  intros F K N Ww. split; [|now apply package_asks]. intros H. apply (package_value_iff p n v F N) in H. destruct H as (c & text & Pc & C & H).
  destruct (value_named c n v H text C) as (Hn & _). destruct (Ww c text Pc C Hn) as (v' & S). rewrite (value_said c text k n v' K C S) in H. destruct H as [<-|[]]. exists c, text. auto.
Qed.

(** ** Roots *)
Lemma root_sets_eq ps : Forall (Forall parsed_file) ps ->
  root_sets fval json_read gs order vorder ps = Some (map (fun p => match package_errors p with [] => package_result p | _ => [] end) ps, flat_map package_errors ps).
Proof.
  induction 1 as [|p ps P _ IH]; [reflexivity|]. cbn [root_sets]. rewrite (package_set_eq p P), IH. cbn [map flat_map]. destruct (package_errors p); reflexivity.
Qed.

(** ** Fields *)
Lemma node_get f id : mget Nat.eqb (file_values f) id = match mget Nat.eqb (nodes_of f) id with Some l => Some (fst (values_at (target_of (events f) id) l)) | None => None end.
Proof. unfold file_values. rewrite (mget_map (fun kv => fst (node_read f kv))). reflexivity. Qed.
End Orders.
End Package.
