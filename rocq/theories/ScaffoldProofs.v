(** * Proofs for C62: type-scaffold *)
From Coq Require Import List String Ascii Bool Arith Lia.
From Verif Require Import GoLib GoLibFacts ScaffoldModel ScaffoldSpec.
Import ListNotations.
Open Scope string_scope.
Open Scope list_scope.

(** ** The template *)
Definition template_tree : list node := Eval vm_compute in match parse_template types_template_raw with Some t => t | None => [] end.
Lemma template_parses : parse_template types_template_raw = Some template_tree.
Proof. vm_compute. reflexivity. Qed.

(** ** The lines *)
Definition comment_of (s : string) : string := String tab ("// " ++ s)%string.
Definition help_text (help : string) : list string := if String.eqb help "" then [] else map comment_of (split_char nl help).
Definition text_lines (k r help : string) (namespaced clients : bool) : list string :=
  [("// " ++ k ++ "Spec defines the desired state of " ++ k)%string; ("type " ++ k ++ "Spec struct {")%string;
   comment_of "INSERT ADDITIONAL SPEC FIELDS -- desired state of cluster"]
  ++ (help_text help
  ++ ["}"; ""; ("// " ++ k ++ "Status defines the observed state of " ++ k ++ ".")%string;
      "// It should always be reconstructable from the state of the cluster and/or outside world."; ("type " ++ k ++ "Status struct {")%string;
      comment_of "INSERT ADDITIONAL STATUS FIELDS -- observed state of cluster"]
  ++ (help_text help
  ++ ["}"; ""; "// +k8s:deepcopy-gen:interfaces=k8s.io/apimachinery/pkg/runtime.Object"]
  ++ ((if clients then ["// +genclient"] else []) ++ (if clients && negb namespaced then ["// +genclient:nonNamespaced"] else []))
  ++ [""; ("// " ++ k ++ " is the Schema for the " ++ r ++ " API")%string; "// +k8s:openapi-gen=true"; ("type " ++ k ++ " struct {")%string;
      String tab "metav1.TypeMeta   `json:"",inline""`"; String tab "metav1.ObjectMeta `json:""metadata,omitempty""`"; "";
      String tab ("Spec   " ++ k ++ "Spec   `json:""spec,omitempty""`")%string; String tab ("Status " ++ k ++ "Status `json:""status,omitempty""`")%string;
      "}"; ""; "// +k8s:deepcopy-gen:interfaces=k8s.io/apimachinery/pkg/runtime.Object"]
  ++ (if clients && negb namespaced then ["// +genclient:nonNamespaced"] else [])
  ++ [""; ("// " ++ k ++ "List contains a list of " ++ k)%string; ("type " ++ k ++ "List struct {")%string;
      String tab "metav1.TypeMeta `json:"",inline""`"; String tab "metav1.ListMeta `json:""metadata,omitempty""`";
      String tab ("Items           []" ++ k ++ " `json:""items""`")%string; "}"; ""])).

Lemma app_assoc_s (a b c : string) : ((a ++ b) ++ c = a ++ (b ++ c))%string.
Proof. induction a as [|x a IH]; simpl; [reflexivity|now rewrite IH]. Qed.
Lemma app_nil_s (a : string) : (a ++ "" = a)%string.
Proof. induction a as [|x a IH]; simpl; [reflexivity|now rewrite IH]. Qed.

(** Every line with the newline before it *)
Fixpoint lead (l : list string) : string := match l with [] => "" | x :: l' => (String nl (x ++ lead l'))%string end.
Lemma join_lead x l : join (String nl "") (x :: l) = (x ++ lead l)%string.
Proof.
  revert x. induction l as [|y l IH]; intros x; [simpl; now rewrite app_nil_s|].
  change (join (String nl "") (x :: y :: l)) with (x ++ String nl (join (String nl "") (y :: l)))%string. now rewrite IH.
Qed.
Lemma lead_app a b : lead (a ++ b) = (lead a ++ lead b)%string.
Proof. induction a as [|x a IH]; simpl; [reflexivity|]. now rewrite IH, app_assoc_s. Qed.

Lemma concat_empty l : String.concat "" l = fold_right String.append "" l.
Proof.
  induction l as [|x l IH]; [reflexivity|]. destruct l as [|y l]; [simpl; now rewrite app_nil_s|].
  change (String.concat "" (x :: y :: l)) with (x ++ "" ++ String.concat "" (y :: l))%string. now rewrite IH.
Qed.

(** The help text as the template writes it *)
Lemma exec_help o dot :
  exec o dot (NIf WhenHelp [NRange [NText (String nl (String tab "// ")); NDot]]) = lead (help_text (o_help o)).
Proof.
  unfold exec, test, help_text. destruct (String.eqb (o_help o) "") eqn:E; cbn [negb]; [reflexivity|].
  cbn [map]. rewrite (concat_empty [_]). cbn [fold_right]. rewrite app_nil_s, concat_empty. change (ascii_of_nat 10) with nl.
  induction (split_char nl (o_help o)) as [|x l IH]; [reflexivity|]. cbn [map fold_right lead]. rewrite IH, concat_empty. cbn [map fold_right].
  rewrite app_nil_s. reflexivity.
Qed.

(** ** What is written *)
Lemma exec_text o dot s : exec o dot (NText s) = s. Proof. reflexivity. Qed.
Lemma written o :
  scaffold o = Some (join (String nl "") (text_lines (sr_kind (o_resource o)) (sr_resource (o_resource o)) (o_help o) (sr_namespaced (o_resource o)) (o_clients o))).
Proof.
  unfold scaffold. rewrite template_parses. f_equal. rewrite concat_empty.
  destruct o as [[ns k r] help cl]. unfold text_lines. cbn [o_resource sr_kind sr_resource o_help sr_namespaced o_clients].
  rewrite <- app_comm_cons, join_lead. repeat first [rewrite lead_app | progress cbn [app lead]].
  pose proof (exec_help (mkOptions (mkSResource ns k r) help cl) "") as H. cbn [o_help] in H.
  unfold template_tree. cbn [map fold_right].
  change (String nl (String tab "// ")) with "
	// " in H.
  rewrite !H. clear H. generalize (lead (help_text help)). intros h.
  destruct cl, ns; cbn [exec test andb negb o_resource o_clients sr_namespaced sr_kind sr_resource map String.concat lead app append comment_of];
    unfold comment_of; repeat first [rewrite app_assoc_s | rewrite app_nil_s | progress cbn [lead app append]]; reflexivity.
Qed.

(** ** Reading it back *)
Lemma strip_app pre s : strip pre (pre ++ s) = Some s.
Proof. induction pre as [|c pre IH]; simpl; [reflexivity|]. now rewrite Ascii.eqb_refl. Qed.
Definition wordy (s : string) : Prop := snd (span word_char s) = "".
Lemma wordy_cons c s : wordy (String c s) <-> word_char c = true /\ wordy s.
Proof.
  unfold wordy. simpl. destruct (word_char c) eqn:E; [|split; [discriminate|intros [H _]; discriminate]].
  destruct (span word_char s) as [a b]. simpl. split; [auto|intros [_ H]; exact H].
Qed.
Lemma wordy_app a b : wordy a -> wordy b -> wordy (a ++ b).
Proof. induction a as [|c a IH]; [auto|]. intros Ha Hb. apply wordy_cons in Ha as [Hc Ha]. apply wordy_cons. split; [exact Hc|]. now apply IH. Qed.
Lemma span_wordy a b c : wordy a -> word_char c = false -> span word_char (a ++ String c b) = (a, String c b).
Proof.
  induction a as [|x a IH]; intros Ha Hc; simpl; [now rewrite Hc|]. apply wordy_cons in Ha as [Hx Ha]. rewrite Hx, (IH Ha Hc). reflexivity.
Qed.
Lemma identifier_wordy k : identifier k = true -> wordy k.
Proof. unfold identifier. destruct k as [|c k]; [discriminate|]. intros H. apply andb_true_iff in H as [H _]. apply String.eqb_eq in H. exact H. Qed.
Lemma identifier_app k b : identifier k = true -> wordy b -> identifier (k ++ b) = true.
Proof.
  intros Hk Hb. pose proof (wordy_app _ _ (identifier_wordy _ Hk) Hb) as Hw. destruct k as [|c k]; [discriminate|].
  unfold identifier in *. simpl append. apply andb_true_iff in Hk as [_ Hd]. unfold wordy in Hw. simpl append in Hw. rewrite Hw. exact Hd.
Qed.
Lemma wordy_no_nl k : wordy k -> has_char nl k = false.
Proof.
  induction k as [|c k IH]; [reflexivity|]. intros H. apply wordy_cons in H as [Hc Hk]. simpl. rewrite (IH Hk), orb_false_r.
  destruct (Ascii.eqb_spec c nl) as [->|]; [discriminate Hc|reflexivity].
Qed.
Lemma type_line_of k suffix : identifier k = true -> wordy suffix -> type_line ("type " ++ k ++ suffix ++ " struct {") = Some (k ++ suffix)%string.
Proof.
  intros Hk Hs. unfold type_line. rewrite strip_app, <- app_assoc_s. change " struct {" with (String " " "struct {").
  rewrite span_wordy; [|apply wordy_app; [apply identifier_wordy, Hk|exact Hs]|reflexivity]. rewrite identifier_app by assumption. reflexivity.
Qed.

Lemma split_char_clean c s : Forall (fun x => has_char c x = false) (split_char c s).
Proof.
  induction s as [|a s IH]; simpl; [repeat constructor|]. destruct (Ascii.eqb a c) eqn:E; [constructor; [reflexivity|exact IH]|].
  destruct (split_char c s) as [|x l]; [constructor; [simpl; now rewrite E|constructor]|]. inversion IH; subst. constructor; [simpl; now rewrite E|assumption].
Qed.

(** One step of the reader, per kind of line *)
Lemma read_blank above cur l : read_decls ("" :: l) above cur None = read_decls l (match cur with [] => above | _ => rev cur :: above end) [] None.
Proof. reflexivity. Qed.
Lemma read_comment u above cur l : read_decls (("// " ++ u)%string :: l) above cur None = read_decls l above (u :: cur) None.
Proof. reflexivity. Qed.
Lemma read_type k suffix above cur l :
  identifier k = true -> wordy suffix ->
  read_decls (("type " ++ k ++ suffix ++ " struct {")%string :: l) above cur None
  = read_decls l [] [] (Some (mkDecl (rev above) (rev cur) (k ++ suffix)%string [], [])).
Proof.
  intros Hk Hs. pose proof (type_line_of _ _ Hk Hs) as H. simpl. simpl in H. rewrite H. reflexivity.
Qed.
Lemma read_field t d acc l :
  read_decls (String tab t :: l) [] [] (Some (d, acc)) = read_decls l [] [] (Some (d, (match strip "// " t with Some u => BComment u | None => BField t end) :: acc)).
Proof. reflexivity. Qed.
Lemma read_body_blank d acc l : read_decls ("" :: l) [] [] (Some (d, acc)) = read_decls l [] [] (Some (d, BBlank :: acc)).
Proof. reflexivity. Qed.
Lemma read_close d acc l :
  read_decls ("}" :: l) [] [] (Some (d, acc))
  = match read_decls l [] [] None with Some ds => Some (mkDecl (d_above d) (d_doc d) (d_name d) (rev acc) :: ds) | None => None end.
Proof. reflexivity. Qed.
Lemma read_help help d acc l :
  read_decls (help_text help ++ l) [] [] (Some (d, acc)) = read_decls l [] [] (Some (d, rev (help_lines help) ++ acc)).
Proof.
  unfold help_text, help_lines. destruct (String.eqb help ""); [reflexivity|].
  revert acc. induction (split_char nl help) as [|x xs IH]; intros acc; [reflexivity|].
  cbn [map app rev]. unfold comment_of at 1. rewrite read_field, strip_app, IH. now rewrite <- app_assoc.
Qed.

Ltac rstep := first
  [ refine (eq_trans (read_blank _ _ _) _)
  | refine (eq_trans (read_body_blank _ _ _) _)
  | refine (eq_trans (read_field _ _ _ _) _)
  | refine (eq_trans (read_help _ _ _ _) _)
  | refine (eq_trans (read_comment _ _ _ _) _) ].
Ltac rtype k s Hk := refine (eq_trans (read_type k s _ _ _ Hk eq_refl) _).
Ltac rclose := refine (eq_trans (read_close _ _ _) _).
Lemma read_lines k r help ns cl :
  identifier k = true -> read_decls (text_lines k r help ns cl) [] [] None = Some (scaffolded k r help ns cl).
Proof.
  intros Hk. unfold text_lines, comment_of. cbn [app].
  rstep. rtype k "Spec" Hk. rstep. rstep. rclose.
  match goal with |- match ?x with Some _ => _ | None => _ end = _ => enough (E : x = Some (List.tl (scaffolded k r help ns cl))) end.
  { rewrite E. unfold scaffolded. cbn [List.tl rev app d_above d_doc d_name]. rewrite rev_app_distr, rev_involutive. reflexivity. }
  cbn [app]. rstep. rstep. rstep. rtype k "Status" Hk. rstep. rstep. rclose.
  match goal with |- match ?x with Some _ => _ | None => _ end = _ => enough (E : x = Some (List.tl (List.tl (scaffolded k r help ns cl)))) end.
  { rewrite E. unfold scaffolded. cbn [List.tl rev app d_above d_doc d_name]. rewrite rev_app_distr, rev_involutive. reflexivity. }
  assert (L : forall g, g = [("+k8s:deepcopy-gen:interfaces=k8s.io/apimachinery/pkg/runtime.Object" : string)] ++ (if cl && negb ns then ["+genclient:nonNamespaced"] else []) ->
    read_decls ([""; ("// " ++ k ++ "List contains a list of " ++ k)%string; ("type " ++ k ++ "List struct {")%string;
      String tab "metav1.TypeMeta `json:"",inline""`"; String tab "metav1.ListMeta `json:""metadata,omitempty""`";
      String tab ("Items           []" ++ k ++ " `json:""items""`")%string; "}"; ""]) [] (rev g) None
    = Some (List.tl (List.tl (List.tl (scaffolded k r help ns cl))))).
  { intros g Eg. destruct (rev g) as [|x xs] eqn:Er.
    { apply (f_equal (@rev string)) in Er. rewrite rev_involutive in Er. rewrite Er in Eg. discriminate Eg. }
    rstep. rstep. rtype k "List" Hk. rstep. rstep. rstep. rclose. rewrite <- Er, rev_involutive, Eg. reflexivity. }
  pose proof (L _ eq_refl) as E. clear L.
  destruct cl, ns; cbn [app andb negb] in *; repeat rstep; rtype k "" Hk; repeat rstep; rclose;
    match type of E with ?x = _ => match goal with |- match ?y with Some _ => _ | None => _ end = _ => change y with x end end;
    rewrite E; unfold scaffolded; cbn [List.tl rev app d_above d_doc d_name]; rewrite app_nil_s; reflexivity.
Qed.
Lemma text_lines_clean k r help ns cl :
  has_char nl k = false -> has_char nl r = false -> Forall (fun s => has_char nl s = false) (text_lines k r help ns cl).
Proof.
  intros Hk Hr.
  assert (Hh : Forall (fun s => has_char nl s = false) (help_text help)).
  { unfold help_text. destruct (String.eqb help ""); [constructor|]. apply Forall_map. unfold comment_of.
    eapply Forall_impl; [|apply split_char_clean]. intros x Hx. cbn beta in *. simpl. exact Hx. }
  unfold text_lines. repeat (apply Forall_app; split); try exact Hh;
    repeat match goal with |- context [if ?b then _ else _] => destruct b end;
    repeat (constructor; [unfold comment_of; cbn [has_char]; rewrite ?has_char_app, ?Hk, ?Hr; reflexivity|]); constructor.
Qed.
Lemma declares o out :
  identifier (sr_kind (o_resource o)) = true -> has_char nl (sr_resource (o_resource o)) = false -> scaffold o = Some out ->
  declarations out = Some (scaffolded (sr_kind (o_resource o)) (sr_resource (o_resource o)) (o_help o) (sr_namespaced (o_resource o)) (o_clients o)).
Proof.
  intros Hk Hr H. rewrite written in H.
  assert (E : forall a b : string, Some a = Some b -> b = a) by (intros a b Hab; congruence). apply E in H. rewrite H. clear H E. unfold declarations. rewrite split_join_char.
  - apply read_lines, Hk.
  - discriminate.
  - apply text_lines_clean; [apply wordy_no_nl, identifier_wordy, Hk|exact Hr].
Qed.
