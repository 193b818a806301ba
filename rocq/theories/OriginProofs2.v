(** * C64: any two readings of the comments give the same values *)
From Coq Require Import List String Ascii Bool Arith ZArith NArith QArith Permutation Lia.
From Verif Require Import GoLib GoLibFacts MapFacts DocModel SchemaModel ErrorsModel ValidSpec MarkModel MarkSpec StructModel FlattenModel NeedModel StructSpec StructProofs EmitSpec RegistryModel CollectModel CollectSpec CollectProps
  TablesModel TablesSpec TablesProofs TablesProofs2 TablesProofs3 TablesProofs4 TablesProps SourceModel SourceSpec SourceProofs SourceProofs2 SourceProofs3 SourceProofs4 SourceProps OriginModel OriginSpec OriginProofs.
Import ListNotations.
Open Scope string_scope.
Open Scope list_scope.

Scheme conforms_mut := Minimality for conforms Sort Prop with holds_mut := Minimality for holds Sort Prop with fits_mut := Minimality for fits Sort Prop.
Combined Scheme conforms_ind3 from conforms_mut, holds_mut, fits_mut.

(** ** Sets of markers that say the same *)
Definition same_set (a b : marker_values) : Prop := (forall x m, In m (markers_of a x) <-> In m (markers_of b x)) /\ (forall n, marked a n <-> marked b n).
Definition same_field (f g : finfo) : Prop := fi_name f = fi_name g /\ fi_exported f = fi_exported g /\ fi_json f = fi_json g /\ fi_type f = fi_type g /\ same_set (fi_markers f) (fi_markers g).
Definition same_type (t u : tinfo) : Prop := ti_raw t = ti_raw u /\ ti_json t = ti_json u /\ ti_text t = ti_text u /\ same_set (ti_markers t) (ti_markers u) /\ Forall2 same_field (ti_fields t) (ti_fields u).

Lemma markers_iff set b m : In m (markers_of set b) <-> exists n l, In (n, l) set /\ has_prefix items_prefix n = b /\ In (VSchema m) l.
Proof.
  unfold markers_of. rewrite in_flat_map. split.
  - intros ([n l] & I & H). cbn [fst snd] in H. destruct (Bool.eqb (has_prefix items_prefix n) b) eqn:E; [|destruct H]. apply Bool.eqb_prop in E. exists n, l. split; [exact I|]. split; [exact E|].
    apply in_flat_map in H as (v & Iv & H). destruct v as [m'|]; [destruct H as [->|[]]; exact Iv|destruct H].
  - intros (n & l & I & E & Iv). exists (n, l). split; [exact I|]. cbn [fst snd]. rewrite E, Bool.eqb_reflx. apply in_flat_map. exists (VSchema m). split; [exact Iv|now left].
Qed.
Lemma marked_in set n : NoDup (map fst set) -> (marked set n <-> exists u l, In (n, l) set /\ In u l).
Proof.
  intros N. unfold marked. split.
  - intros (v & vs & G). apply (MapFacts.mget_in _ _ String.eqb String.eqb_eq) in G. exists v, (v :: vs). split; [exact G|now left].
  - intros (u & l & I & Iu). apply (MapFacts.in_mget _ _ String.eqb String.eqb_eq _ _ _ N) in I. destruct l as [|v vs]; [destruct Iu|]. exists v, vs. exact I.
Qed.

Section Same.
  Variable fval : string -> option Q.
  Variable json_read : string -> option json.
  Variable gs : list generator.
  Notation reading := (reading fval json_read gs).
  Lemma reading_same cs t a b : reading cs t a -> reading cs t b -> same_set a b.
  Proof.
    intros (Na & Ha) (Nb & Hb). assert (E : forall n u, (exists l, In (n, l) a /\ In u l) <-> (exists l, In (n, l) b /\ In u l)) by (intros n u; rewrite Ha, Hb; reflexivity). split.
    - intros x m. rewrite !markers_iff. split; intros (n & l & I & Ep & Iv); [destruct (proj1 (E n (VSchema m)) (ex_intro _ l (conj I Iv))) as (l' & I' & Iv')|destruct (proj2 (E n (VSchema m)) (ex_intro _ l (conj I Iv))) as (l' & I' & Iv')]; exists n, l'; auto.
    - intros n. rewrite (marked_in a n Na), (marked_in b n Nb). split; intros (u & l & I & Iu); exists u; [apply E|apply (proj2 (E n u))]; exists l; auto.
  Qed.
  Lemma reads_type_same gp d t u : reads_type fval json_read gs gp d t -> reads_type fval json_read gs gp d u -> same_type t u.
  Proof.
    intros (A1 & A2 & A3 & A4 & A5 & A6) (B1 & B2 & B3 & B4 & B5 & B6). unfold same_type. split; [congruence|]. split; [congruence|]. split; [congruence|]. split; [exact (reading_same _ _ _ _ A5 B5)|].
    revert A6 B6. generalize (td_fields d) (ti_fields t) (ti_fields u). clear. intros l a b A. revert b. induction A as [|fd f l a R A IH]; intros b B; inversion B as [|? g ? b' R' B']; subst; constructor; [|apply IH, B'].
    destruct R as (R1 & R2 & R3 & R4 & R5), R' as (R1' & R2' & R3' & R4' & R5'). unfold same_field. split; [congruence|]. split; [congruence|]. split; [congruence|]. split; [congruence|]. exact (reading_same _ _ _ _ R5 R5').
  Qed.
End Same.

Lemma set_sym a b : same_set a b -> same_set b a.
Proof. intros (A & B). split; [intros x m; symmetry; apply A|intros n; symmetry; apply B]. Qed.
Lemma field_sym f g : same_field f g -> same_field g f.
Proof. intros (A & B & C & D & E). unfold same_field. repeat (split; [congruence|]). exact (set_sym _ _ E). Qed.
Lemma type_sym t u : same_type t u -> same_type u t.
Proof.
  intros (A & B & C & D & E). unfold same_type. repeat (split; [congruence|]). split; [exact (set_sym _ _ D)|]. clear -E. induction E; constructor; [apply field_sym; assumption|assumption].
Qed.
Lemma same_plays ig pm pm' f g r : same_field f g -> (marked pm "kubebuilder:validation:Optional" <-> marked pm' "kubebuilder:validation:Optional") -> plays ig pm f r -> plays ig pm' g r.
Proof.
  intros (A & B & C & D & (_ & M)) P H.
  assert (Hh : hidden ig f <-> hidden ig g) by (unfold hidden; rewrite A, B; reflexivity).
  inversion H as [K|K J|K J|tag n opts i o q K J ND Tp I Om Q]; subst; [constructor 1|constructor 2|constructor 3|]; rewrite <- ?C; try tauto.
  eapply plays_member with (omit := o); try eassumption; [tauto|congruence|].
  inversion Q as [H1|H1 H2|H1 H2 H3|H1 H2 H3 H4|H1 H2|H1 H2]; subst; [constructor 1|constructor 2|constructor 3|constructor 4|constructor 5|constructor 6]; rewrite <- ?M, <- ?P; try assumption;
  intros m Im; rewrite <- M; exact (H1 m Im).
Qed.

Section Values.
  Variable O : oracles.
  Variable ig : bool.
  Variable presets : string -> list (string * schema).
  Variables types types' : ident -> option tinfo.
  Variables pm pm' : string -> marker_values.
  Hypothesis same : forall id ti, types id = Some ti -> exists ti', types' id = Some ti' /\ same_type ti ti' /\
    (marked (pm (fst id)) "kubebuilder:validation:Optional" <-> marked (pm' (fst id)) "kubebuilder:validation:Optional").

  Definition like (a b : list smarker) : Prop := forall m, In m a <-> In m b.
  Lemma keeps_like a b typ fmt v : like a b -> keeps O a typ fmt v -> keeps O b typ fmt v.
  Proof. intros L (A & B & C). split; [intros m I; apply A, L, I|]. split; [intros N; apply B; intros t I; apply (N t), L, I|intros N; apply C; intros t I; apply (N t), L, I]. Qed.

  Lemma conforms_same :
    (forall id v, conforms O ig pm types presets id v -> conforms O ig pm' types' presets id v) /\
    (forall pkg f v, holds O ig pm types presets pkg f v -> forall g, same_field f g -> holds O ig pm' types' presets pkg g v) /\
    (forall pkg e own its v, fits O ig pm types presets pkg e own its v -> forall own' its', like own own' -> like its its' -> fits O ig pm' types' presets pkg e own' its' v).
  Proof.
    apply conforms_ind3.
    - intros id s v P V. eapply con_set; eassumption.
    - intros id ti t v P T J I Ne K. destruct (same id ti T) as (ti' & T' & (R & Ej & Et & (S & _) & F) & _). eapply con_json with (t := t); try eassumption; [congruence|apply S, I|]. eapply keeps_like; [|exact K]. intros m. apply S.
    - intros id ti v P T J X K. destruct (same id ti T) as (ti' & T' & (R & Ej & Et & (S & _) & F) & _). eapply con_text; try eassumption; [congruence|congruence|]. eapply keeps_like; [|exact K]. intros m. apply S.
    - intros id ti v P T D R H IH. destruct (same id ti T) as (ti' & T' & (Er & Ej & Et & (S & _) & F) & _). eapply con_spec; try eassumption.
      + destruct D as [(J & N)|(J & X)]; [left|right]; (split; [congruence|]); [intros t I; apply N, S, I|congruence].
      + congruence.
      + rewrite <- Er. apply IH; intros m; apply S.
    - intros id ti v P T D R K C1 C2 IH2 C3 IH3. destruct (same id ti T) as (ti' & T' & (Er & Ej & Et & (S & _) & F) & Pm).
      assert (Bk : forall g, In g (ti_fields ti') -> exists f, In f (ti_fields ti) /\ same_field f g).
      { clear -F. induction F as [|f g l l' H F IH]; [intros g []|]. intros g' [<-|I]; [exists f; split; [now left|exact H]|]. destruct (IH g' I) as (f' & I' & H'). exists f'. split; [now right|exact H']. }
      assert (Pm' : marked (pm' (fst id)) "kubebuilder:validation:Optional" <-> marked (pm (fst id)) "kubebuilder:validation:Optional") by (symmetry; exact Pm).
      eapply con_struct; try eassumption.
      + destruct D as [(J & N)|(J & X)]; [left|right]; (split; [congruence|]); [intros t I; apply N, S, I|congruence].
      + congruence.
      + eapply keeps_like; [|exact K]. intros m. apply S.
      + intros l g n i E I Q. destruct (Bk g I) as (f & If & Sf). exact (C1 l f n i E If (same_plays _ _ _ _ _ _ (field_sym _ _ Sf) Pm' Q)).
      + intros l g n q x E I Q G. destruct (Bk g I) as (f & If & Sf). exact (IH2 l f n q x E If (same_plays _ _ _ _ _ _ (field_sym _ _ Sf) Pm' Q) G g Sf).
      + intros g n q I Q. destruct (Bk g I) as (f & If & Sf). exact (IH3 f n q If (same_plays _ _ _ _ _ _ (field_sym _ _ Sf) Pm' Q) g Sf).
    - intros pkg f v M K g (A & B & C & D & (S & Mk)). apply holds_any; [apply Mk, M|]. eapply keeps_like; [|exact K]. intros m. apply S.
    - intros pkg f v M H IH g (A & B & C & D & (S & Mk)). apply holds_type; [rewrite <- Mk; exact M|]. rewrite <- D. apply IH; intros m; apply S.
    - intros pkg n t k typ fmt own its v Mt J K own' its' L L'. eapply fits_basic; try eassumption. eapply keeps_like; eassumption.
    - intros pkg n t k b typ fmt own its v Mt Ne J K H IH own' its' L L'. eapply fits_alias; try eassumption. eapply keeps_like; eassumption.
    - intros pkg n t o m u p own its v Mt Ho H IH K own' its' L L'. eapply fits_named; try eassumption. eapply keeps_like; eassumption.
    - intros pkg t o m u p own its v Mt Ho H IH K own' its' L L'. eapply fits_selected; try eassumption. eapply keeps_like; eassumption.
    - intros pkg e own its v B K own' its' L L'. apply fits_bytes; [exact B|]. eapply keeps_like; eassumption.
    - intros pkg sized e own its v B K H IH own' its' L L'. apply fits_array; [exact B|eapply keeps_like; eassumption|]. intros l x E I. apply (IH l x E I); [exact L'|intros m; reflexivity].
    - intros pkg key e own its v K H IH own' its' L L'. apply fits_map; [eapply keeps_like; eassumption|]. intros l k x E I. apply (IH l k x E I); intros m; reflexivity.
    - intros pkg e own its v H IH own' its' L L'. apply fits_star. apply IH; assumption.
  Qed.
End Values.

Lemma reads_same fval json_read gs srcs types types' pm pm' : NoDup (map fst srcs) -> reads fval json_read gs srcs types pm -> reads fval json_read gs srcs types' pm' ->
  forall id ti, types id = Some ti -> exists ti', types' id = Some ti' /\ same_type ti ti' /\ (marked (pm (fst id)) "kubebuilder:validation:Optional" <-> marked (pm' (fst id)) "kubebuilder:validation:Optional").
Proof.
  intros N R R' [p n] ti T. destruct (rd_others _ _ _ _ _ _ R p n) as (gp & d & Ip & L & I & En); [congruence|]. subst n.
  destruct (rd_types _ _ _ _ _ _ R p gp d Ip L I) as (t1 & T1 & D1). rewrite T in T1. injection T1 as <-. destruct (rd_types _ _ _ _ _ _ R' p gp d Ip L I) as (t2 & T2 & D2). exists t2. split; [exact T2|].
  split; [exact (reads_type_same _ _ _ _ _ _ _ D1 D2)|]. cbn [fst]. rewrite (rd_packages _ _ _ _ _ _ R p gp Ip), (rd_packages _ _ _ _ _ _ R' p gp Ip). reflexivity.
Qed.
(** The values of a type are the same by any two readings. *)
Lemma reads_values fval json_read gs srcs types types' pm pm' O ig presets : NoDup (map fst srcs) -> reads fval json_read gs srcs types pm -> reads fval json_read gs srcs types' pm' ->
  forall id v, conforms O ig pm types presets id v <-> conforms O ig pm' types' presets id v.
Proof.
  intros N R R' id v. split.
  - apply (conforms_same O ig presets types types' pm pm' (reads_same _ _ _ _ _ _ _ _ N R R')).
  - apply (conforms_same O ig presets types' types pm' pm (reads_same _ _ _ _ _ _ _ _ N R' R)).
Qed.

(** ** The parser's tables are a reading *)
Section Table.
  Variable fval : string -> option Q.
  Variable json_read : string -> option json.
  Variable gs : list generator.
  Variable forder : file -> list (nat * list marker) -> list (nat * list marker).
  Variable vorder : list (string * list tvalue) -> list (string * list tvalue).
  Hypothesis forder_perm : forall f l, Permutation (forder f l) l.
  Hypothesis vorder_perm : forall l, Permutation (vorder l) l.
  Notation marks := (marks fval json_read gs forder).
  Notation package_marks := (package_marks fval json_read gs forder vorder).
  Notation indexed := (indexed fval json_read gs forder vorder).
  Notation said := (said fval json_read gs).
  Notation all_said := (all_said fval json_read gs).
  Notation vals := (values_of payload tvalue (registry_of gs) (parse_value fval json_read)).

  Lemma read_back t c b n v : In v (vals t n (mkMarker c b)) -> is_marker_comment (c_text c) = true -> forall (comments : CollectModel.comment -> Prop), comments c -> all_said comments t -> said comments t n v.
  Proof.
    intros Iv Mk comments Cc A. destruct (collected_text c Mk) as (text & C). destruct (marker_value_sound fval json_read gs t n v (mkMarker c b) Iv) as (k & Vk & Kn & a & text' & Et & Hn).
    assert (En : text' = text). { apply comment_is_iff in C as (_ & C). rewrite (same_text c b false), C in Et. injection Et as _ <-. reflexivity. }
    subst text'. destruct (A c text k n Cc C Kn Hn) as (v' & S). pose proof (proj1 (comment_read fval json_read gs k t n text v' (mkMarker c b) Kn S C)) as E. rewrite E in Iv. destruct Iv as [<-|[]].
    exists k, c, text. auto.
  Qed.
  Lemma field_exact gp d fd n v : compiled gp -> indexed gp = true -> In d (gp_decls gp) -> In fd (td_fields d) -> all_said (field_comment gp (df_node fd)) DescribesField ->
    (In v (of_name (marks gp (df_node fd)) n) <-> said (field_comment gp (df_node fd)) DescribesField n v).
  Proof.
    intros C X Id Ifd A. split; [|apply (field_said fval json_read gs forder vorder forder_perm gp fd n v C X)].
    destruct (cp_fields gp C d fd Id Ifd) as (f & top & h & If & Ih & Kh & Eh). pose proof (indexed_nodes fval json_read gs forder vorder gp (df_node fd) X) as E. rewrite <- Eh in E |- *. intros H.
    destruct (field_values fval json_read gs forder forder_perm _ f top h _ n (cp_files gp C) (cp_nodes gp C) If Ih Kh E) as (_ & Ev). rewrite Ev in H. apply in_flat_map in H as ([c b] & Im & Iv).
    destruct (own_comment f h c b Im) as (Mk & Nc). apply (read_back DescribesField c b n v Iv Mk); [exists f, top, h; auto|rewrite Eh; exact A].
  Qed.
  Lemma spec_exact gp d n v : compiled gp -> indexed gp = true -> In d (gp_decls gp) -> all_said (spec_comment gp (td_node d)) DescribesType ->
    (In v (of_name (marks gp (td_node d)) n) <-> said (spec_comment gp (td_node d)) DescribesType n v).
  Proof.
    intros C X Id A. split; [|apply (spec_said fval json_read gs forder vorder forder_perm gp d n v C X)].
    destruct (cp_types gp C d Id) as (f & before & top & h & after & If & Ih & Kh & Eh). pose proof (indexed_nodes fval json_read gs forder vorder gp (td_node d) X) as E. rewrite <- Eh in E |- *. intros H.
    destruct (type_values fval json_read gs forder forder_perm _ f before top h after _ n (cp_files gp C) (cp_nodes gp C) If Ih Kh E) as (_ & Ev). rewrite Ev in H. apply in_flat_map in H as ([c b] & Im & Iv).
    apply filter_In in Im as (Im & _). assert (Q : is_marker_comment (c_text c) = true /\ type_comment f before h c).
    { apply in_app_or in Im as [Im|Im].
      - unfold of_decl in Im. destruct (open_decl before) as [d0|] eqn:Eo; [|destruct Im]. destruct (own_comment f d0 c b Im) as (Mk & Nc). split; [exact Mk|]. right. now exists d0.
      - destruct (own_comment f h c b Im) as (Mk & Nc). split; [exact Mk|]. now left. }
    destruct Q as (Mk & Nc). apply (read_back DescribesType c b n v Iv Mk); [exists f, before, top, h, after; auto|rewrite Eh; exact A].
  Qed.
  Lemma package_exact gp n v : compiled gp -> indexed gp = true -> (forall k, ~ known gs k DescribesType n) -> all_said (package_comment (gp_files gp)) DescribesPackage ->
    (In v (of_name (package_marks gp) n) <-> said (package_comment (gp_files gp)) DescribesPackage n v).
  Proof.
    intros C X N A. split; [|apply (package_said fval json_read gs forder vorder forder_perm vorder_perm gp n v C X N)]. apply indexed_package in X as (P & _).
    destruct (result_inl fval json_read gs forder vorder forder_perm _ _ (cp_files gp C) P) as (-> & _). intros I. apply (package_value_iff fval json_read gs forder vorder forder_perm vorder_perm _ n v (cp_files gp C) N) in I as (c & text & Pc & Ct & I).
    apply (read_back DescribesPackage c false n v I (proj1 (proj1 (comment_is_iff c text) Ct)) _ Pc A).
  Qed.
  Lemma field_nodup gp d fd : compiled gp -> indexed gp = true -> In d (gp_decls gp) -> In fd (td_fields d) -> NoDup (map fst (marks gp (df_node fd))).
  Proof.
    intros C X Id Ifd. destruct (cp_fields gp C d fd Id Ifd) as (f & top & h & If & Ih & Kh & Eh). pose proof (indexed_nodes fval json_read gs forder vorder gp (df_node fd) X) as E. rewrite <- Eh in E |- *.
    destruct (field_values fval json_read gs forder forder_perm _ f top h _ "" (cp_files gp C) (cp_nodes gp C) If Ih Kh E) as (Em & _). rewrite Em. apply values_nodup.
  Qed.
  Lemma spec_nodup gp d : compiled gp -> indexed gp = true -> In d (gp_decls gp) -> NoDup (map fst (marks gp (td_node d))).
  Proof.
    intros C X Id. destruct (cp_types gp C d Id) as (f & before & top & h & after & If & Ih & Kh & Eh). pose proof (indexed_nodes fval json_read gs forder vorder gp (td_node d) X) as E. rewrite <- Eh in E |- *.
    destruct (type_values fval json_read gs forder forder_perm _ f before top h after _ "" (cp_files gp C) (cp_nodes gp C) If Ih Kh E) as (Em & _). rewrite Em. apply values_nodup.
  Qed.
  Lemma set_reading m cs t : NoDup (map fst m) -> (forall n v, In v (of_name m n) <-> said cs t n v) -> reading fval json_read gs cs t (schema_set m).
  Proof.
    intros N H. split; [unfold schema_set; rewrite map_map; exact N|]. intros n u. split.
    - intros (l & I & Iu). unfold schema_set in I. apply in_map_iff in I as ([n' l'] & [= <- <-] & I). cbn [fst snd] in *. apply in_map_iff in Iu as (v & <- & Iv). exists v. split; [|reflexivity]. apply H. apply name_in. exists l'.
      split; [apply (MapFacts.in_mget _ _ String.eqb String.eqb_eq _ _ _ N I)|exact Iv].
    - intros (v & S & ->). apply H, name_in in S as (l & G & Iv). apply (MapFacts.mget_in _ _ String.eqb String.eqb_eq) in G. exists (map schema_value l). split; [apply in_map_iff; exists (n, l); auto|apply List.in_map, Iv].
  Qed.

  Variable srcs : list (string * gpackage).
  Hypothesis srcs_nodup : NoDup (map fst srcs).
  Hypothesis srcs_compiled : forall p gp, In (p, gp) srcs -> compiled gp.
  Notation types := (source_types fval json_read gs forder vorder srcs).
  Notation pkg_markers := (source_pkg_markers fval json_read gs forder vorder srcs).
  Hypothesis no_errors : comment_errors fval json_read gs forder vorder srcs = [].
  Hypothesis all_well : forall p gp, In (p, gp) srcs -> well_said fval json_read gs gp.

  Lemma package_fine p gp : In (p, gp) srcs -> package_set fval json_read gs forder vorder (gp_files gp) = Some (inl (package_marks gp)).
  Proof.
    intros I. destruct (source_result fval json_read gs forder vorder forder_perm _ (cp_files gp (srcs_compiled p gp I))) as [(m & E)|(c & e & E)]; [unfold OriginModel.package_marks; rewrite E; reflexivity|].
    exfalso. assert (Ic : In c (comment_errors fval json_read gs forder vorder srcs)); [|rewrite no_errors in Ic; destruct Ic]. apply in_flat_map. exists (p, gp). split; [exact I|]. cbn [snd]. rewrite E. now left.
  Qed.
  Lemma package_exact' p gp n v : In (p, gp) srcs -> (forall k, ~ known gs k DescribesType n) -> (In v (of_name (package_marks gp) n) <-> said (package_comment (gp_files gp)) DescribesPackage n v).
  Proof.
    intros I N. pose proof (package_fine p gp I) as P. pose proof (srcs_compiled p gp I) as C. pose proof (proj1 (all_well p gp I)) as A. destruct (result_inl fval json_read gs forder vorder forder_perm _ _ (cp_files gp C) P) as (Er & _). split.
    - rewrite Er. intros Iv. apply (package_value_iff fval json_read gs forder vorder forder_perm vorder_perm _ n v (cp_files gp C) N) in Iv as (c & text & Pc & Ct & Iv).
      apply (read_back DescribesPackage c false n v Iv (proj1 (proj1 (comment_is_iff c text) Ct)) _ Pc A).
    - intros (k & c & text & Pc & Ct & K & S). apply (source_package_complete fval json_read gs forder vorder forder_perm vorder_perm _ _ k n v (cp_files gp C) P K N). exists c, text. auto.
  Qed.
  Lemma indexed_iff p gp : In (p, gp) srcs -> (indexed gp = true <-> ~ left_out fval json_read gs gp).
  Proof.
    intros I. unfold OriginModel.indexed. rewrite (package_fine p gp I). unfold left_out. assert (N : forall k, ~ known gs k DescribesType "kubebuilder:skip") by (apply not_at_types; cbn; tauto).
    destruct (of_name (package_marks gp) "kubebuilder:skip") as [|v l] eqn:E; (split; [intros H|]); try discriminate; try reflexivity.
    - intros (v & S). apply (package_exact' p gp _ v I N) in S. rewrite E in S. destruct S.
    - intros H. exfalso. apply H. exists v. apply (package_exact' p gp _ v I N). rewrite E. now left.
  Qed.
  Lemma tables_read : reads fval json_read gs srcs types pkg_markers.
  Proof.
    split.
    - intros p gp d I L Id. apply (indexed_iff p gp I) in L. exists (type_info fval json_read gs forder gp d). split.
      + apply (types_iff fval json_read gs forder vorder srcs srcs_nodup srcs_compiled). exists gp, d. auto.
      + pose proof (srcs_compiled p gp I) as C. destruct (all_well p gp I) as (_ & Wt & Wf). unfold reads_type. cbn. repeat (split; [reflexivity|]). split.
        * apply set_reading; [exact (spec_nodup gp d C L Id)|]. intros n v. exact (spec_exact gp d n v C L Id (Wt d Id)).
        * assert (Al : forall l, incl l (td_fields d) -> Forall2 (reads_field fval json_read gs gp) l (map (field_info fval json_read gs forder gp) l)); [|apply Al, incl_refl].
          induction l as [|fd l IH]; intros Inc; constructor; [|apply IH; intros x Ix; apply Inc; now right]. assert (Ifd : In fd (td_fields d)) by (apply Inc; now left).
          unfold reads_field. cbn. repeat (split; [reflexivity|]). apply set_reading; [exact (field_nodup gp d fd C L Id Ifd)|]. intros n v. exact (field_exact gp d fd n v C L Id Ifd (Wf d fd Id Ifd)).
    - intros p n T. destruct (types (p, n)) as [ti|] eqn:E; [|congruence]. apply (types_iff fval json_read gs forder vorder srcs srcs_nodup srcs_compiled) in E as (gp & d & Ip & X & Id & En & _). exists gp, d. cbn in *.
      split; [exact Ip|]. split; [apply (indexed_iff p gp Ip), X|auto].
    - intros p gp I. unfold source_pkg_markers. rewrite (MapFacts.in_mget _ _ String.eqb String.eqb_eq _ _ _ srcs_nodup I), set_marked.
      assert (N : forall k, ~ known gs k DescribesType "kubebuilder:validation:Optional") by (apply not_at_types; cbn; tauto). split.
      + intros H. destruct (of_name (package_marks gp) "kubebuilder:validation:Optional") as [|v l] eqn:E; [congruence|]. exists v. apply (package_exact' p gp _ v I N). rewrite E. now left.
      + intros (v & S). apply (package_exact' p gp _ v I N) in S. intros E. rewrite E in S. destruct S.
  Qed.
End Table.
