(** * C70: -wwww lists exactly the markers that comments can use *)

From Coq Require Import List String Ascii Bool Arith Lia Permutation.
From Verif Require Import GoLib RegistryModel RegistrySpec RegistryProofs ParseModel HelpModel HelpSpec HelpProps.
From Verif Require Import SchemaModel LevelsModel LevelsSpec LevelsProps WhichModel.
From Verif Require TablesModel TablesSpec TablesProofs TablesProps.
Import ListNotations.
Open Scope string_scope.
Open Scope list_scope.

(** ** Fields of the tables are there once *)

Fixpoint once (l : list string) : bool := match l with [] => true | x :: l => negb (existsb (String.eqb x) l) && once l end.
Lemma once_nodup l : once l = true -> NoDup l.
Proof.
  induction l as [|x l IH]; simpl; intros H; [constructor|]. apply andb_true_iff in H as [H1 H2]. constructor; [|auto].
  intros I. apply negb_true_iff in H1. rewrite <- not_true_iff_false in H1. apply H1. apply existsb_exists. exists x. split; [exact I|apply String.eqb_refl].
Qed.
Lemma tables_once g : forallb (fun d => once (map fst (d_fields (TablesModel.p_def (d_payload d))))) (TablesModel.made (TablesModel.table g)) = true.
Proof. destruct g; vm_compute; reflexivity. Qed.
Lemma definitions_once gs d : In d (TablesModel.definitions gs) -> NoDup (map fst (d_fields (TablesModel.p_def (d_payload d)))).
Proof.
  intros I. unfold TablesModel.definitions in I. apply in_flat_map in I as (g & _ & I). pose proof (tables_once g) as H. rewrite forallb_forall in H.
  apply once_nodup, (H d I).
Qed.

Section Which.
Variable ptr : def TablesModel.payload -> nat.
Variable hs : helps.
Variable gs : list TablesModel.generator.
Variable rd : list (string * hdef) -> list (string * hdef).
Variable rf : list (string * detail) -> list (string * detail).
Variable rg : list (string * list hdef) -> list (string * list hdef).
Variable sh : list hdef -> list hdef.
Variable sf : list field_doc -> list field_doc.
Hypothesis any_rd : is_order rd.
Hypothesis any_rf : is_order rf.
Hypothesis any_rg : is_order rg.
Hypothesis any_sh : is_order sh.
Hypothesis any_sf : is_order sf.

Let ds := map (with_pointer ptr) (TablesModel.definitions gs).
Let info := by_category rd rf rg sh sf (which_registry ptr gs) hs sort_by_category.

(** A marker in the JSON: an object in the markers of an object in the array. *)
Definition listed (s : streams) (k : json) : Prop :=
  exists l j ms, to_out s = Some (JArr l) /\ In j l /\ member j "markers" (JArr ms) /\ In k ms.

Lemma in_force_in d : in_force ds d -> In d ds.
Proof. intros (l1 & l2 & -> & _). apply in_or_app. right; left; reflexivity. Qed.
Lemma all_once d : in_force ds d -> fields_once d.
Proof. intros F. apply in_force_in in F. apply in_map_iff in F as (x & <- & I). unfold fields_once. cbn. apply (definitions_once gs), I. Qed.
Lemma last_one (l : list hdef) d : In d l -> exists d', registered_as l (d_target d) (d_name d) d'.
Proof.
  intros I. pose proof (table_spec payload l (d_target d) (d_name d)) as H. destruct (mget _ _ _) as [d'|]; [exists d'; exact H|].
  exfalso. apply (H d I). auto.
Qed.
Lemma same_force t n d : registered_as ds t n d -> in_force ds d /\ d_target d = t /\ d_name d = n.
Proof. intros (l1 & l2 & E & T & N & L). split; [|auto]. exists l1, l2. rewrite T, N. auto. Qed.

Lemma listed_marker k : listed (print_marker_docs rd rf rg sh sf ptr hs gs 4) k <->
  exists c m, In c info /\ In m (cd_markers c) /\ k = marker_json m.
Proof.
  unfold listed, print_marker_docs. fold info. split.
  - intros (l & j & ms & E & Ij & M & Ik). cbn in E. injection E as <-. apply in_map_iff in Ij as (c & <- & Ic).
    destruct M as (l & E & I). injection E as <-. cbn in I. destruct I as [I|[I|[]]]; [discriminate|]. injection I as <-.
    apply in_map_iff in Ik as (m & <- & Im). exists c, m. auto.
  - intros (c & m & Ic & Im & ->). exists (map category_json info), (category_json c), (map marker_json (cd_markers c)). split; [reflexivity|].
    split; [apply in_map, Ic|]. split; [apply member_in; right; left; reflexivity|apply in_map, Im].
Qed.
Lemma word_injective t t' : word t = word t' -> t = t'.
Proof. destruct t, t'; simpl; intros E; try reflexivity; discriminate. Qed.

(** What is listed under a name and a target documents the definition in force. *)
Lemma listed_documents k n t : listed (print_marker_docs rd rf rg sh sf ptr hs gs 4) k -> member k "name" (JStr n) -> member k "target" (JStr (word t)) ->
  exists d m, in_force ds d /\ d_name d = n /\ d_target d = t /\ marker_said k m /\ proper k /\ documents (help_of hs d) d m.
Proof.
  intros L N T. apply listed_marker in L as (c & m & Ic & Im & ->).
  destruct (help_complete rd rf rg sh sf any_rd any_rf any_rg any_sh any_sf ds hs sort_by_category (proj1 both_strict_weak) all_once) as (Sound & _).
  destruct (Sound c m Ic Im) as (d & F & _ & Doc). exists d, m. split; [exact F|].
  pose proof (marker_proper m) as P. pose proof (marker_says m) as S.
  pose proof (proper_one _ _ _ _ P N (ms_name _ _ S)) as E1. pose proof (proper_one _ _ _ _ P T (ms_target _ _ S)) as E2.
  injection E1 as ->. injection E2 as E2. rewrite (dc_target _ _ _ Doc) in E2. apply word_injective in E2.
  split; [symmetry; apply (dc_name _ _ _ Doc)|]. split; [auto|]. auto.
Qed.

(** A marker is listed for a target exactly if one of the generators knows it there. *)
Theorem which_listed n t :
  (exists k, listed (print_marker_docs rd rf rg sh sf ptr hs gs 4) k /\ member k "name" (JStr n) /\ member k "target" (JStr (word t))) <->
  exists kind, TablesSpec.known gs kind t n.
Proof.
  split.
  - intros (k & L & N & T). destruct (listed_documents k n t L N T) as (d & m & F & <- & <- & _). apply in_force_in in F.
    apply in_map_iff in F as (x & <- & I). exists (TablesModel.p_kind (d_payload x)). apply TablesProofs.known_definition. exists x. cbn. auto.
  - intros (kind & K). apply TablesProofs.known_definition in K as (x & I & <- & <- & _).
    destruct (last_one ds (with_pointer ptr x)) as (d & R); [apply in_map, I|]. apply same_force in R as (F & T & N). cbn in T, N.
    destruct (help_complete rd rf rg sh sf any_rd any_rf any_rg any_sh any_sf ds hs sort_by_category (proj1 both_strict_weak) all_once) as (_ & Complete & _).
    destruct (Complete d F) as (c & m & Ic & Im & _ & Doc). exists (marker_json m). split; [apply listed_marker; exists c, m; auto|].
    pose proof (marker_says m) as S. split.
    + rewrite <- N, <- (dc_name _ _ _ Doc). apply (ms_name _ _ S).
    + rewrite <- T, <- (dc_target _ _ _ Doc). apply (ms_target _ _ S).
Qed.

(** That is, exactly if a comment of that name, at a place of that kind, is read as a marker. *)
Theorem which_usable n t : has_char "=" n = false ->
  ((exists k, listed (print_marker_docs rd rf rg sh sf ptr hs gs 4) k /\ member k "name" (JStr n) /\ member k "target" (JStr (word t))) <->
   exists d, lookup TablesModel.payload (TablesModel.registry_of gs) ("+" ++ n) t = Some d /\ d_name d = n).
Proof.
  intros H. rewrite which_listed. split.
  - intros (kind & K). apply (TablesProps.marker_known gs kind t n H) in K as (d & L & N & _). exists d; auto.
  - intros (d & L & N). exists (TablesModel.p_kind (d_payload d)). apply (TablesProps.marker_known gs _ t n H). exists d; auto.
Qed.

(** The fields that are listed for it are the arguments that it takes. *)
Theorem which_fields k n t a : listed (print_marker_docs rd rf rg sh sf ptr hs gs 4) k -> member k "name" (JStr n) -> member k "target" (JStr (word t)) ->
  ((exists fs f, member k "fields" (JArr fs) /\ In f fs /\ member f "name" (JStr a)) <->
   exists d g, In d (TablesModel.definitions gs) /\ d_name d = n /\ d_target d = t /\ In (a, g) (d_fields (TablesModel.p_def (d_payload d)))).
Proof.
  intros L N T. destruct (listed_documents k n t L N T) as (d & m & F & En & Et & S & P & Doc).
  assert (U : forall x, In x (TablesModel.definitions gs) -> d_name x = n -> d_target x = t -> p_defn (d_payload d) = TablesModel.p_def (d_payload x)).
  { intros x I Xn Xt. apply in_force_in in F. apply in_map_iff in F as (y & <- & Iy). cbn in En, Et |- *.
    assert (Ry : registered_as (TablesModel.definitions gs) t n y) by (apply TablesProofs.registered_iff; auto).
    assert (Rx : registered_as (TablesModel.definitions gs) t n x) by (apply TablesProofs.registered_iff; auto).
    rewrite (registered_unique _ _ _ _ _ _ Ry Rx). reflexivity. }
  split.
  - intros (fs & f & M & If & Nf). apply in_force_in in F. apply in_map_iff in F as (y & <- & Iy). exists y.
    destruct (ms_fields _ _ S) as [(l & M' & F2)|[A _]]; [|destruct (A _ M)].
    pose proof (proper_one _ _ _ _ P M M') as E. injection E as <-.
    pose proof (proper_items _ _ _ P M) as PI.
    assert (G : exists g, In g (md_fields m) /\ field_said f g).
    { clear - F2 If. induction F2 as [|x y fs l H F2 IH]; [destruct If|]. destruct If as [->|If]; [exists y; split; [left; reflexivity|exact H]|].
      destruct (IH If) as (g & I & S). exists g; split; [right; exact I|exact S]. }
    destruct G as (g & Ig & Sg). destruct (dc_fields _ _ _ Doc g Ig) as (h & Ih & _). exists h. cbn in En, Et, Ih. split; [exact Iy|]. split; [exact En|]. split; [exact Et|].
    pose proof (proper_one _ _ _ _ (PI f If) Nf (fs_name _ _ Sg)) as E. injection E as ->. exact Ih.
  - intros (x & g & I & Xn & Xt & Ia). rewrite <- (U x I Xn Xt) in Ia. destruct (dc_all _ _ _ Doc a g Ia) as (f & If & Ef).
    destruct (ms_fields _ _ S) as [(l & M & F2)|[_ E]]; [|rewrite E in If; destruct If].
    exists l. clear - F2 If Ef M.
    assert (G : exists j, In j l /\ field_said j f).
    { clear - F2 If. induction F2 as [|x y l fs H F2 IH]; [destruct If|]. destruct If as [->|If]; [exists x; split; [left; reflexivity|exact H]|].
      destruct (IH If) as (j & I & S). exists j; split; [right; exact I|exact S]. }
    destruct G as (j & Ij & Sj). exists j. split; [exact M|]. split; [exact Ij|]. rewrite <- Ef. apply (fs_name _ _ Sj).
Qed.
End Which.

(** Non-vacuity: the one marker of the RBAC generator, with its arguments; and, of all generators, one that only another one knows *)
Example which_case : to_out (print_marker_docs (fun l => l) (fun l => l) (fun l => l) (fun l => l) (fun l => l) (fun _ => 0) [] [TablesModel.GenRbac] 4) =
  Some (JArr [JObj [("category", JStr ""); ("markers", JArr [JObj [("name", JStr "kubebuilder:rbac"); ("target", JStr "package"); ("summary", JStr ""); ("category", JStr ""); ("fields", JArr [JObj [("name", JStr "groups"); ("type", JStr "slice"); ("optional", JBool true); ("itemType", JObj [("type", JStr "string"); ("optional", JBool false)]); ("summary", JStr "")]; JObj [("name", JStr "namespace"); ("type", JStr "string"); ("optional", JBool true); ("summary", JStr "")]; JObj [("name", JStr "resourceNames"); ("type", JStr "slice"); ("optional", JBool true); ("itemType", JObj [("type", JStr "string"); ("optional", JBool false)]); ("summary", JStr "")]; JObj [("name", JStr "resources"); ("type", JStr "slice"); ("optional", JBool true); ("itemType", JObj [("type", JStr "string"); ("optional", JBool false)]); ("summary", JStr "")]; JObj [("name", JStr "urls"); ("type", JStr "slice"); ("optional", JBool true); ("itemType", JObj [("type", JStr "string"); ("optional", JBool false)]); ("summary", JStr "")]; JObj [("name", JStr "verbs"); ("type", JStr "slice"); ("optional", JBool false); ("itemType", JObj [("type", JStr "string"); ("optional", JBool false)]); ("summary", JStr "")]])]])]]).
Proof. vm_compute. reflexivity. Qed.
Example which_case_known : (exists kind, TablesSpec.known [TablesModel.GenObject] kind DescribesType "kubebuilder:object:root") /\
  ~ (exists kind, TablesSpec.known [TablesModel.GenRbac] kind DescribesType "kubebuilder:object:root").
Proof.
  split.
  - eexists. apply TablesProofs.known_definition. eexists. split; [vm_compute; do 4 right; left; reflexivity|]. repeat split; vm_compute; reflexivity.
  - intros (kind & K). apply TablesProofs.known_definition in K as (d & I & T & N & _). vm_compute in I. repeat destruct I as [<-|I]; try destruct I; vm_compute in T, N; discriminate.
Qed.

Print Assumptions which_listed.
Print Assumptions which_usable.
Print Assumptions which_fields.
