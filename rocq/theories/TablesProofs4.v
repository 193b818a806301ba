(** * Proofs about the marker tables: writing markers, and moving them to the package. *)
From Coq Require Import List String Ascii Bool Arith ZArith QArith Permutation Sorting.Sorted Lia.
From Verif Require Import GoLib GoLibFacts HelpgenSpec HelpgenProofs2 MapFacts DocModel ScanModel RegistryModel RegistrySpec RegistryProofs RegistryProps ParseModel ParseSpec ScanProofs ParseProofs ParseGrammar ParseDefs ParseWrite
  ParseProps SchemaModel MarkModel CrdModel CollectModel CollectProps TablesModel TablesSpec TablesProofs TablesProofs2 TablesProofs3.
From Verif Require RbacModel WebhookModel.
Import ListNotations.
Open Scope string_scope.
Open Scope list_scope.

Section Write.
Variable fval : string -> option Q.
Variable json_read : string -> option json.
Notation float := (float_ok fval).

Definition strs (l : list string) : value := VList (map VStr l).
Definition ptr {A} (mk : A -> value) (n : string) (o : option A) : list (string * value) := match o with Some x => [(n, VPtr (mk x))] | None => [] end.
(** All arguments, in the order of the fields *)
Definition given (v : tvalue) : list (string * value) :=
  match v with
  | TvSchema (MXValidation r) => [("rule", VStr (vr_rule r)); ("message", VStr (vr_message r)); ("messageExpression", VStr (vr_messageExpr r)); ("reason", VStr (vr_reason r)); ("fieldPath", VStr (vr_fieldPath r))] ++
      ptr VBool "optionalOldSelf" (vr_optionalOldSelf r)
  | TvCrd (CScale s) => [("specpath", VStr (sc_spec s)); ("statuspath", VStr (sc_status s))] ++ ptr VStr "selectorpath" (sc_selector s)
  | TvCrd (CColumn c) => [("name", VStr (co_name c)); ("type", VStr (co_type c)); ("JSONPath", VStr (co_path c)); ("description", VStr (co_desc c)); ("format", VStr (co_format c)); ("priority", VInt (co_priority c))]
  | TvCrd (CResource r) => [("path", VStr (r_path r)); ("shortName", strs (r_short r)); ("categories", strs (r_categories r)); ("singular", VStr (r_singular r)); ("scope", VStr (r_scope r))]
  | TvCrd (CDeprecated w) => ptr VStr "warning" w
  | TvCrd (CMetadata a l) => [("annotations", strs a); ("labels", strs l)]
  | TvCrd (CSelectable p) => [("JSONPath", VStr p)]
  | TvRule r => [("groups", strs (RbacModel.r_groups r)); ("resources", strs (RbacModel.r_resources r)); ("resourceNames", strs (RbacModel.r_names r)); ("verbs", strs (RbacModel.r_verbs r));
      ("urls", strs (RbacModel.r_urls r)); ("namespace", VStr (RbacModel.r_ns r))]
  | TvHook h => [("mutating", VBool (WebhookModel.h_mutating h)); ("failurePolicy", VStr (WebhookModel.h_failure h)); ("matchPolicy", VStr (WebhookModel.h_match h)); ("sideEffects", VStr (WebhookModel.h_side h));
      ("timeoutSeconds", VInt (WebhookModel.h_timeout h)); ("groups", strs (WebhookModel.h_groups h)); ("resources", strs (WebhookModel.h_resources h)); ("verbs", strs (WebhookModel.h_verbs h));
      ("versions", strs (WebhookModel.h_versions h)); ("name", VStr (WebhookModel.h_name h)); ("serviceName", VStr (WebhookModel.h_service h)); ("serviceNamespace", VStr (WebhookModel.h_namespace h));
      ("path", VStr (WebhookModel.h_path h)); ("webhookVersions", strs (WebhookModel.h_whversions h)); ("admissionReviewVersions", strs (WebhookModel.h_reviews h));
      ("reinvocationPolicy", VStr (WebhookModel.h_reinvocation h)); ("url", VStr (WebhookModel.h_url h))] ++ ptr VInt "servicePort" (WebhookModel.h_port h)
  | TvHookConfig w => [("mutating", VBool (WebhookModel.wc_mutating w)); ("name", VStr (WebhookModel.wc_name w))]
  | _ => []
  end.
Lemma strs_written l : written float (ASlice AStr) (strs l). Proof. constructor. induction l; cbn; constructor; [constructor|assumption]. Qed.
Definition goes (ps : list (string * arg * bool)) (kv : string * value) : Prop := exists a r, In (fst kv, a, r) ps /\ written float a (snd kv).
Lemma args_written ps l : l <> [] -> Forall (goes ps) l -> exists s, args_text fval ps s l.
Proof.
  intros N F. induction F as [|[n v] l (a & r & I & W) F IH]; [congruence|]. destruct (marker_value_written float a v W) as (s & D). cbn in I.
  assert (Sp : spaces "") by apply spaces_nil. assert (Bf : before "" s) by (split; auto). destruct l as [|kv l].
  - exists ("" ++ n ++ "" ++ "=" ++ "" ++ s)%string. exact (args_last fval ps "" n "" "" s a r v false Sp Sp I Bf D).
  - destruct IH as (rest & R); [discriminate|]. exists ("" ++ n ++ "" ++ "=" ++ "" ++ s ++ "" ++ "," ++ rest)%string.
    apply (args_more fval ps "" n "" "" s "" a r v false rest (kv :: l)); auto. split; auto.
Qed.
Lemma last_in (l : list (string * value)) n v : nodupb (map fst l) = true -> In (n, v) l -> last_value l n v.
Proof.
  intros N I. apply nodupb_nodup in N. apply in_split in I as (x & y & ->). exists x, y. split; [reflexivity|]. intros H. rewrite map_app in N. cbn in N. apply NoDup_remove in N as [_ N]. apply N, in_or_app. auto.
Qed.
Ltac arg := first [left; apply last_in; [reflexivity|cbn; tauto]|apply last_in; [reflexivity|cbn; tauto]|cbn; intuition discriminate].
Lemma given_named k v : expressible fval k v -> takes_one k = None -> ~ flag k v -> named_value (given v) k v.
Proof.
  intros E T F. destruct E as [k v E|k a x v E _ _|[? ? ? ? ? o]|[? ? o]|[? ? ? ? ? ?] _|[? ? ? ? ?]|o|a l|p|[? ? ? ? ? ?]|h _ _|w]; try contradiction; try congruence.
  - destruct o; constructor; arg.
  - destruct o; constructor; arg.
  - constructor; arg.
  - constructor; arg.
  - destruct o; constructor; arg.
  - constructor; arg.
  - constructor; arg.
  - constructor; arg.
  - destruct h as [? ? ? ? ? ? ? ? ? ? ? ? ? o ? ? ? ?]; destruct o; constructor; arg.
  - destruct w; constructor; arg.
Qed.
Ltac inn := first [left; reflexivity|right; inn].
Lemma given_goes k v : expressible fval k v -> takes_one k = None -> ~ flag k v -> Forall (goes (parameters k)) (given v).
Proof.
  intros E T F. assert (P : forall n x ps a r, In (n, a, r) ps -> written float a x -> goes ps (n, x)) by (intros n x ps a r I W; exists a, r; auto).
  assert (Pt : forall A mk n (o : option A) ps a r, In (n, APtr a, r) ps -> a <> AAny -> (forall x, o = Some x -> written float a (mk x)) -> Forall (goes ps) (ptr mk n o)).
  { intros A mk n [x|] ps a r I N W; cbn; constructor; [|constructor]. exists (APtr a), r. split; [exact I|]. constructor; auto. }
  assert (St : forall s, written float AStr (VStr s)) by (intros; constructor). assert (Bo : forall b, written float ABool (VBool b)) by (intros; constructor).
  assert (I64 : forall z, in_int64 z -> written float (AInt false) (VInt z)) by (intros; constructor; assumption).
  assert (I32 : forall z, (- 2 ^ 31 <= z < 2 ^ 31)%Z -> written float (AInt true) (VInt z)) by (intros; constructor; assumption).
  assert (Ls := strs_written).
  destruct E as [k v E|k a x v E _ _|r|s|c Hc|r|o|a l|p|r|h H1 H2|w]; try contradiction; try congruence; cbn [given]; try (apply Forall_app; split);
    repeat (apply Forall_cons; [eapply P; [cbn; inn|auto]|]); try apply Forall_nil; (eapply Pt; [cbn; inn|discriminate|auto]).
Qed.
Lemma given_all k v : expressible fval k v -> takes_one k = None -> ~ flag k v -> all_required (parameters k) (given v).
Proof.
  intros E T F n a. destruct E as [k v E|k b x v E _ _|r|s|c Hc|r|o|b l|p|r|h H1 H2|w]; try contradiction; try congruence; cbn; intros H;
    repeat (destruct H as [H|H]; [first [discriminate H|injection H as <- _; auto 20]|]); contradiction.
Qed.
Lemma flag_dec k v : flag k v \/ ~ flag k v.
Proof. destruct k, v as [m|c| | | | | | | |]; try (right; intros F; inversion F; fail); try destruct m; try destruct c; try (right; intros F; inversion F; fail); left; constructor. Qed.
Lemma one_written k a x : takes_one k = Some a -> written float a x -> forall n v, one_value fval k x v -> exists text, says fval json_read k n text v.
Proof.
  intros T W n v O. destruct (marker_value_written float a x W) as (s & D). exists (n ++ "=" ++ "" ++ s)%string. apply (says_one fval json_read k n a "" s x false v T D); [split; [apply spaces_nil|auto]|exact O].
Qed.
Lemma all_written k n v : expressible fval k v -> exists text, says fval json_read k n text v.
Proof.
  intros E. destruct (flag_dec k v) as [F|F]; [exists n; constructor; exact F|]. destruct (takes_one k) as [a|] eqn:T.
  - destruct E as [k v E|k b x v E W O|r|s|c Hc|r|o|c l|p|r|h H1 H2|w]; try contradiction; try discriminate T. apply (one_written k b x E W n v O).
  - assert (Nv := given_named k v E T F). assert (R := given_all k v E T F). assert (G := given_goes k v E T F). destruct (given v) as [|kv l] eqn:Eg.
    + exists n. apply says_no_args; assumption.
    + destruct (args_written (parameters k) (kv :: l)) as (s & A); [discriminate|exact G|]. exists (n ++ ":" ++ s)%string. apply (says_args fval json_read k n s (kv :: l)); assumption.
Qed.
End Write.

(** ** Moving to the package *)
Definition apart (d d' : def payload) : bool :=
  match d_target d, d_target d' with
  | DescribesPackage, DescribesType => negb (has_prefix (d_name d' ++ ":") (d_name d))
  | _, _ => true
  end.
Lemma apart_names gs d d' a : In d (definitions gs) -> In d' (definitions gs) -> d_target d = DescribesPackage -> d_target d' = DescribesType ->
  d_name d <> (d_name d' ++ ":" ++ a)%string.
Proof.
  intros H H' T T'. apply in_definitions in H as (g & _ & H), H' as (g' & _ & H').
  assert (F := each_pair apart ltac:(vm_compute; reflexivity) g g' d d' H H'). unfold apart in F. rewrite T, T' in F. intros E. rewrite E in F.
  rewrite <- (str_app_assoc (d_name d') ":" a), has_prefix_app in F. discriminate.
Qed.
(** The part before the '=' *)
Definition head_of (text : string) : string := match cut_char "=" text with Some (a, _) => a | None => text end.
Lemma head_plain n : has_char "=" n = false -> head_of n = n. Proof. intros H. unfold head_of. now rewrite cut_char_none. Qed.
Lemma head_eq n rest : has_char "=" n = false -> head_of (n ++ "=" ++ rest) = n. Proof. intros H. unfold head_of. simpl. now rewrite cut_char_eq. Qed.
Lemma colon_inj p a q b : has_char ":" a = false -> has_char ":" b = false -> (p ++ ":" ++ a = q ++ ":" ++ b)%string -> p = q.
Proof.
  revert q. induction p as [|c p IH]; intros q A B E; destruct q as [|d q]; simpl in E; [reflexivity| | |].
  - injection E as <- E. assert (H : has_char ":" a = true) by (rewrite E, has_char_app; simpl; apply orb_true_r). congruence.
  - injection E as -> E. assert (H : has_char ":" b = true) by (rewrite <- E, has_char_app; simpl; apply orb_true_r). congruence.
  - injection E as -> E. f_equal. now apply IH.
Qed.
Definition heads (n h : string) : Prop := h = n \/ exists a, h = (n ++ ":" ++ a)%string /\ has_char "=" a = false /\ has_char ":" a = false.
Lemma says_heads fval json_read k n text v : has_char "=" n = false -> says fval json_read k n text v -> head_of text = n \/ (parameters k <> [] /\ heads n (head_of text)).
Proof.
  intros P. destruct 1 as [k n v F|k n a w s x b v T De Bf O|k n s l v At R Nv|k n v R Nv|n s j J Nr|n s Rf|s E]; try (left; first [now apply head_plain|now apply head_eq]).
  - right. split; [apply (named_kind _ _ _ Nv)|]. right. destruct (args_first fval _ _ _ At) as (a & rest & -> & A1 & A2). exists a. repeat split; auto.
    replace (n ++ ":" ++ a ++ "=" ++ rest)%string with ((n ++ ":" ++ a) ++ "=" ++ rest)%string by now rewrite !str_app_assoc. apply head_eq. rewrite !has_char_app, P, A1. reflexivity.
  - left. destruct E as [->| ->]; reflexivity.
Qed.
Lemma found_heads gs text t d : lookup payload (registry_of gs) ("+" ++ text) t = Some d -> In d (definitions gs) /\ d_target d = t /\ heads (d_name d) (head_of text).
Proof.
  intros L. destruct (lookup_found gs _ t d L) as (I & T & c & F). split; [exact I|]. split; [exact T|].
  assert (P : has_char "=" (d_name d) = false) by (apply in_definitions in I as (g & _ & H); apply (names_plain g), H).
  destruct F as [E|[(rest & E)|(a & rest & E & A1 & A2)]]; injection E as _ ->.
  - left. now apply head_plain.
  - left. now apply head_eq.
  - right. exists a. repeat split; auto. change (String ":" (a ++ String "=" rest))%string with (":" ++ a ++ "=" ++ rest)%string. replace (d_name d ++ ":" ++ a ++ "=" ++ rest)%string with ((d_name d ++ ":" ++ a) ++ "=" ++ rest)%string by now rewrite !str_app_assoc. apply head_eq. rewrite !has_char_app, P, A1. reflexivity.
Qed.
Lemma moved_iff fval json_read gs k n text v m : known gs k DescribesPackage n -> says fval json_read k n text v -> comment_of m text ->
  (stays payload (registry_of gs) m = false <-> m_godoc m = false /\ forall k', ~ known gs k' DescribesType n).
Proof.
  intros K S C. apply known_definition in K as (d & I & T & <- & <-). destruct (says_read fval json_read gs d text v I S) as [L _]. rewrite T in L.
  assert (P : has_char "=" (d_name d) = false) by (apply in_definitions in I as (g & _ & H); apply (names_plain g), H).
  unfold stays. rewrite (comment_text m text C), L. destruct (m_godoc m); cbn [orb]; [split; [discriminate|intros [H _]; discriminate]|].
  destruct (lookup payload (registry_of gs) ("+" ++ text) DescribesType) as [d'|] eqn:L'.
  - split; [discriminate|]. intros [_ H]. exfalso. destruct (found_heads gs text _ d' L') as (I' & T' & H'). assert (Hh := says_heads _ _ _ _ _ _ P S).
    destruct Hh as [E|(Pe & [E|(a & E & A1 & A2)])], H' as [E'|(a' & E' & A1' & A2')].
    + apply (H (p_kind (d_payload d'))). apply known_definition. exists d'. repeat split; auto. congruence.
    + assert (X := apart_names gs d d' a' I I' T T'). congruence.
    + apply (H (p_kind (d_payload d'))). apply known_definition. exists d'. repeat split; auto. congruence.
    + assert (X := apart_names gs d d' a' I I' T T'). congruence.
    + apply in_definitions in I as (g & _ & I), I' as (g' & _ & I'). assert (X := struct_prefix g g' d d' a I I' Pe). congruence.
    + apply (H (p_kind (d_payload d'))). apply known_definition. exists d'. repeat split; auto. symmetry. apply (colon_inj _ a _ a' A2 A2'). congruence.
  - split; [|reflexivity]. intros _. split; [reflexivity|]. intros k' K. apply known_definition in K as (d' & I' & T' & N' & _).
    inversion S as [k n v0 F En|k n a w s x b v0 Ta De Bf O|k n s l v0 At R Nv|k n v0 R Nv En|n s j J Nr|n s Rf|s E]; subst.
    + rewrite <- N', <- T', lookup_plain_name in L' by assumption. discriminate.
    + rewrite <- N', <- T', lookup_name in L' by assumption. discriminate.
    + destruct (args_first fval _ _ _ At) as (a & rest & -> & A1 & A2). rewrite <- N' in L'.
      replace (d_name d' ++ ":" ++ a ++ "=" ++ rest)%string with ((d_name d' ++ ":" ++ a) ++ "=" ++ rest)%string in L' by now rewrite !str_app_assoc. rewrite <- T', lookup_part in L'; [discriminate|exact I'|exact A1|exact A2|].
      intros d2 I2. rewrite N'. destruct (named_kind _ _ _ Nv) as (_ & _ & _ & Pe). apply in_definitions in I as (g & _ & I), I2 as (g2 & _ & I2). apply (struct_prefix g g2 d d2 a I I2 Pe).
    + rewrite <- N', <- T', lookup_plain_name in L' by assumption. discriminate.
    + rewrite <- N', <- T', lookup_name in L' by assumption. discriminate.
    + rewrite <- N', <- T', lookup_name in L' by assumption. discriminate.
    + match goal with H : "groupName" = d_name d |- _ => rename H into En end. destruct E as [->| ->].
      * rewrite En, <- N', <- T', lookup_plain_name in L' by assumption. discriminate.
      * replace "groupName=" with (d_name d' ++ "=" ++ "")%string in L' by (rewrite N', <- En; reflexivity). rewrite <- T', lookup_name in L' by assumption. discriminate.
Qed.
Lemma comment_collected m text : comment_of m text -> is_marker_comment (c_text (m_comment m)) = true.
Proof. intros C. assert (E := comment_text m text C). destruct C as (body & Eb & _). unfold is_marker_comment. unfold marker_text in E. rewrite E, Eb. reflexivity. Qed.
