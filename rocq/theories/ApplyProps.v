(** * C55: apply configurations are generated for the packages and types that are marked, where the markers say *)

From Coq Require Import List String Ascii Bool Arith.
From Verif Require Import GoLib RootsModel RootsSpec RootsProofs ApplyModel.
Import ListNotations.
Open Scope string_scope.
Open Scope list_scope.

(** ** Vocabulary *)

(** The type is to have an apply configuration: its own marker says so or, without one, it is a resource. *)
Inductive wants (t : tinfo) : Prop :=
| wants_said l : t_enable t = true :: l -> wants t
| wants_resource : t_enable t = [] -> t_resource t <> 0 -> wants t.

(** The package is to have some: its marker says so; and there is Go code in it. *)
Definition active (r : root) (m : marks) : Prop := r_marks r = Some m /\ (exists l, m_enable m = true :: l) /\ r_files r <> 0.

(** What gengo is given for a type: the comment line if it wants an apply configuration. *)
Definition requested (infos : list tinfo) (g g' : gtype) : Prop :=
  g_name g' = g_name g /\ g_second g' = g_second g /\
  (((exists t, In t infos /\ t_name t = g_name g /\ wants t) /\ g_comments g' = g_comments g ++ ["+genclient"]) \/
   (~ (exists t, In t infos /\ t_name t = g_name g /\ wants t)) /\ g' = g).

(** The name of the output package: of the marker, or applyconfiguration. *)
Inductive output_name (m : marks) : string -> Prop :=
| output_said o l : m_output m = o :: l -> output_name m o
| output_default : m_output m = [] -> output_name m "applyconfiguration".

(** What is executed for a package. *)
Record call_for (header : string) (r : root) (m : marks) (ts : list gtype) (c : call) : Prop := {
  cf_header : c_header c = header;
  cf_place : exists o, output_name m o /\ c_dir c = join2 (r_dir r) o /\ c_pkg c = join2 (r_path r) o;
  cf_types : Forall2 (requested (m_types m)) ts (c_types c) }.

(** The sources have types of different names, and gengo's comments have no slashes. *)
Definition sound_root (r : root) : Prop :=
  (forall m, r_marks r = Some m -> NoDup (map t_name (m_types m))) /\
  (forall ts g, r_universe r = Some ts -> In g ts -> ~ In "// +genclient" (g_comments g ++ g_second g)).

Section Runs.
Variable fails : call -> bool.

(** Packages one after the other; the errors of one do not stop the others. *)
Inductive runs (header : string) : list root -> list call -> list failure -> Prop :=
| runs_nil : runs header [] [] []
| runs_skip r rs cs es : (forall m, ~ active r m) -> runs header rs cs es -> runs header (r :: rs) cs es
| runs_unloaded r rs m e cs es : active r m -> (r_load r = false /\ e = ELoad \/ r_context r = false /\ e = EContext \/ r_universe r = None /\ e = EUniverse) ->
    runs header rs cs es -> runs header (r :: rs) cs (e :: es)
| runs_call r rs m ts c cs es : active r m -> r_load r = true -> r_context r = true -> r_universe r = Some ts -> call_for header r m ts c ->
    runs header rs cs es -> runs header (r :: rs) (c :: cs) (if fails c then EExecute :: es else es).

Lemma wants_enabled t : enabled_on_type t = true <-> wants t.
Proof.
  unfold enabled_on_type, get, is_crd. split.
  - destruct (t_enable t) as [|b l] eqn:E; [|intros ->; now apply (wants_said t l)]. intros H. apply wants_resource; auto. apply negb_true_iff, Nat.eqb_neq in H. exact H.
  - intros [l E|E N]; rewrite E; auto. now apply negb_true_iff, Nat.eqb_neq.
Qed.

Lemma visit_all infos : NoDup (map t_name infos) -> forall ts, (forall g, In g ts -> ~ In "// +genclient" (g_comments g ++ g_second g)) ->
  Forall2 (requested infos) ts (fold_left visit infos ts).
Proof.
  assert (One : forall g, ~ In "// +genclient" (g_comments g ++ g_second g) -> add_genclient g = mkGType (g_name g) (g_comments g ++ ["+genclient"]) (g_second g)).
  { intros g N. unfold add_genclient. destruct (existsb _ _) eqn:E; [|reflexivity]. exfalso. apply existsb_exists in E. destruct E as (x & I & X). apply String.eqb_eq in X. subst x. auto. }
  assert (Map : forall ts, fold_left visit infos ts = map (fun g => fold_left (fun g t => if enabled_on_type t && String.eqb (g_name g) (t_name t) then add_genclient g else g) infos g) ts).
  { induction infos as [|t infos IH]; intros ts; cbn [fold_left]; [symmetry; apply map_id|]. rewrite IH. unfold visit. destruct (enabled_on_type t); cbn [andb]; [now rewrite map_map|reflexivity]. }
  intros N ts NS. rewrite Map. clear Map. induction ts as [|g ts IH]; cbn [map]; constructor; [|apply IH; intros; apply NS; cbn; auto]. clear IH.
  specialize (NS g (or_introl eq_refl)). clear ts.
  assert (Skip : forall l g, ~ In (g_name g) (map t_name l) -> fold_left (fun g t => if enabled_on_type t && String.eqb (g_name g) (t_name t) then add_genclient g else g) l g = g).
  { induction l as [|t l IH]; intros g0 NI; [reflexivity|]. cbn [fold_left map] in *. destruct (String.eqb_spec (g_name g0) (t_name t)) as [E|E]; [exfalso; apply NI; cbn; auto|].
    rewrite andb_false_r. apply IH. intros I. apply NI. cbn. auto. }
  induction infos as [|t infos IH]; cbn [fold_left].
  - repeat split; auto. right. split; [|reflexivity]. intros (t & [] & _).
  - cbn in N. inversion_clear N as [|? ? NI N']. destruct (String.eqb_spec (g_name g) (t_name t)) as [E|E].
    + rewrite Skip.
      * destruct (enabled_on_type t) eqn:W; cbn [andb].
        -- rewrite One by exact NS. repeat split. left. split; [|reflexivity]. exists t. cbn. split; auto. split; auto. now apply wants_enabled.
        -- repeat split. right. split; [|reflexivity]. intros (t' & [<-|I] & Et & W'); [apply wants_enabled in W'; congruence|]. apply NI. rewrite <- E, <- Et. now apply in_map.
      * assert (Nm : g_name (if enabled_on_type t && true then add_genclient g else g) = g_name g) by (destruct (enabled_on_type t && true); [unfold add_genclient; destruct (existsb _ _)|]; reflexivity).
        rewrite Nm, E. exact NI.
    + rewrite andb_false_r. destruct (IH N') as (A & B & C). split; [exact A|]. split; [exact B|]. destruct C as [((t' & I & Et & W) & C)|(C & D)]; [left|right].
      * split; [|exact C]. exists t'. cbn. auto.
      * split; [|exact D]. intros (t' & [<-|I] & Et & W); [congruence|]. apply C. eauto.
Qed.

(** The calls and errors of a run. *)
Theorem apply_runs header rs : (forall r, In r rs -> sound_root r) -> runs header rs (fst (for_roots fails header rs)) (snd (for_roots fails header rs)).
Proof.
  induction rs as [|r rs IH]; intros S; [constructor|]. specialize (IH (fun r' I => S r' (or_intror I))). specialize (S r (or_introl eq_refl)). destruct S as [S1 S2].
  cbn [for_roots]. destruct (for_roots fails header rs) as [cs es]. cbn [fst snd] in IH. unfold for_package, enabled_on_package, output_pkg.
  destruct (r_marks r) as [m|] eqn:M; [|cbn; apply runs_skip; [|exact IH]; intros m [X _]; congruence].
  destruct (m_enable m) as [|[] l] eqn:En; cbn [get];
    try (cbn; apply runs_skip; [|exact IH]; intros m' (X & (l' & Y) & _); rewrite M in X; injection X as <-; rewrite En in Y; discriminate).
  destruct (Nat.eqb_spec (r_files r) 0) as [F|F].
  { cbn. apply runs_skip; [|exact IH]. intros m' (_ & _ & X). auto. }
  assert (A : active r m) by (split; [exact M|split; [eauto|exact F]]).
  destruct (r_load r) eqn:Lo; cbn [negb]; [|cbn; apply (runs_unloaded header r rs m ELoad); auto].
  destruct (r_context r) eqn:Co; cbn [negb]; [|cbn; apply (runs_unloaded header r rs m EContext); auto].
  destruct (r_universe r) as [ts|] eqn:Un; [|cbn; apply (runs_unloaded header r rs m EUniverse); auto].
  set (c := mkCall _ _ _ _). assert (C : call_for header r m ts c).
  { split; [reflexivity| |].
    - destruct (m_output m) as [|o l'] eqn:O; cbn; eexists; split; [apply output_default, O| |eapply output_said, O|]; split; reflexivity.
    - apply visit_all; auto. intros g G. apply (S2 ts); auto. }
  assert (R := runs_call header r rs m ts c cs es A Lo Co Un C IH). cbn [fst snd app]. destruct (fails c); exact R.
Qed.

Lemma call_unique header r m ts c c' : call_for header r m ts c -> call_for header r m ts c' -> c = c'.
Proof.
  intros [H1 (o & O & D & K) T] [H1' (o' & O' & D' & K') T'].
  assert (o' = o) by (destruct O as [? ? O|O], O' as [? ? O'|O']; congruence). subst o'.
  assert (X : c_types c = c_types c').
  { revert T'. generalize (c_types c'). induction T as [|g g' ts l Q T IH]; intros l' T'; inversion T' as [|? g'' ? l'' Q' T'']; subst; [reflexivity|]. f_equal; [|now apply IH].
    destruct g', g''. destruct Q as (Q1 & Q2 & [[Q3 Q4]|[Q3 Q4]]), Q' as (Q1' & Q2' & [[Q3' Q4']|[Q3' Q4']]); cbn in *; congruence || contradiction. }
  destruct c, c'. cbn in *. congruence.
Qed.

(** There are no errors if and only if each package that is to have apply configurations is loaded and executed well. *)
Theorem apply_errors header rs cs es : runs header rs cs es ->
  (es = [] <-> forall r m, In r rs -> active r m -> r_load r = true /\ r_context r = true /\ exists ts c, r_universe r = Some ts /\ call_for header r m ts c /\ fails c = false).
Proof.
  induction 1 as [|r rs cs' es' NA R IH|r rs m e cs' es' A Why R IH|r rs m ts c cs' es' A Lo Co Un C R IH].
  - split; [intros _ r m []|reflexivity].
  - rewrite IH. split; intros H r' m' I A'; [destruct I as [<-|I]; [now apply NA in A'|eauto]|apply H; cbn; auto].
  - split; [discriminate|]. intros H. destruct (H r m (or_introl eq_refl) A) as (X & Y & ts & c & Z & _). destruct Why as [[W _]|[[W _]|[W _]]]; congruence.
  - assert (Same : forall m', active r m' -> m' = m) by (intros m' (X & _); destruct A as (Y & _); congruence). split.
    + destruct (fails c) eqn:F; [discriminate|]. intros E r' m' [<-|I] A'; [|now apply IH].
      apply Same in A'. subst m'. split; [exact Lo|]. split; [exact Co|]. exists ts, c. auto.
    + intros H. assert (F : fails c = false).
      { destruct (H r m (or_introl eq_refl) A) as (_ & _ & ts' & c' & Un' & C' & F'). assert (ts' = ts) as -> by congruence. now rewrite (call_unique _ _ _ _ _ _ C C'). }
      rewrite F. apply IH. intros r' m' I A'. exact (H r' m' (or_intror I) A').
Qed.

(** Each package that is to have them and is loaded is executed, whatever happens to the others; nothing else is; in the order of the roots. *)
Theorem apply_called header rs cs es c : runs header rs cs es ->
  (In c cs <-> exists r m ts, In r rs /\ active r m /\ r_load r = true /\ r_context r = true /\ r_universe r = Some ts /\ call_for header r m ts c).
Proof.
  induction 1 as [|r rs cs' es' NA R IH|r rs m e cs' es' A Why R IH|r rs m ts c' cs' es' A Lo Co Un C R IH].
  - split; [intros []|intros (r & m & ts & [] & _)].
  - rewrite IH. split.
    + intros (r' & m & ts & I & H). exists r', m, ts. cbn. auto.
    + intros (r' & m & ts & [<-|I] & H); [now apply proj1, NA in H|]. exists r', m, ts. auto.
  - rewrite IH. split.
    + intros (r' & m' & ts & I & H). exists r', m', ts. cbn. auto.
    + intros (r' & m' & ts & [<-|I] & H); [destruct H as (_ & X & Y & Z & _), Why as [[W _]|[[W _]|[W _]]]; congruence|]. exists r', m', ts. auto.
  - cbn. rewrite IH. split.
    + intros [<-|(r' & m' & ts' & I & H)]; [exists r, m, ts; cbn; auto 10|]. exists r', m', ts'. auto.
    + intros (r' & m' & ts' & [<-|I] & H); [left|right; exists r', m', ts'; auto]. destruct H as (A' & _ & _ & Un' & C'). assert (m' = m) as -> by (destruct A as (X & _), A' as (Y & _); congruence).
      assert (ts' = ts) as -> by congruence. exact (call_unique _ _ _ _ _ _ C C').
Qed.

(** The whole of Generate: without a header file, an empty one is there for all calls, and removed, whatever happens. *)
Theorem apply_generate header_file temp rs : (forall r, In r rs -> sound_root r) ->
  exists cs es header, runs header rs cs es /\ (header = header_file /\ header <> "" \/ header_file = "" /\ temp = Some header \/ header_file = "" /\ temp = None) /\
    match header_file, temp with
    | "", None => generate fails header_file temp true rs = ([], NoTemp)
    | "", Some f => generate fails header_file temp true rs = (Created f :: map Executed cs ++ [Removed f], match es with [] => Good | _ => Bad es end)
    | _, _ => generate fails header_file temp true rs = (map Executed cs, match es with [] => Good | _ => Bad es end)
    end.
Proof.
  intros S. destruct header_file as [|a h]; [destruct temp as [f|]|].
  - exists (fst (for_roots fails f rs)), (snd (for_roots fails f rs)), f. split; [now apply apply_runs|]. split; [auto|]. cbn. destruct (for_roots fails f rs) as [cs es]. reflexivity.
  - exists (fst (for_roots fails "" rs)), (snd (for_roots fails "" rs)), "". split; [now apply apply_runs|]. split; [auto|]. reflexivity.
  - exists (fst (for_roots fails (String a h) rs)), (snd (for_roots fails (String a h) rs)), (String a h). split; [now apply apply_runs|].
    split; [left; split; [reflexivity|discriminate]|]. cbn [generate]. unfold generate. cbn [String.eqb]. destruct (for_roots fails (String a h) rs) as [cs es]. reflexivity.
Qed.
End Runs.

(** ** Where the output is *)

(** Going on from a place below another, never above that. *)
Inductive stays : list string -> list string -> Prop :=
| stays_nil rel : stays rel []
| stays_here rel c l : c = "" \/ c = "." -> stays rel l -> stays rel (c :: l)
| stays_up x rel l : stays rel l -> stays (x :: rel) (".." :: l)
| stays_down rel c l : c <> "" -> c <> "." -> c <> ".." -> stays (c :: rel) l -> stays rel (c :: l).

Lemma stays_go rel l : stays rel l -> exists rel', forall base, fold_left go l (rel ++ base) = rel' ++ base.
Proof.
  induction 1 as [rel|rel c l C S (rel' & E)|x rel l S (rel' & E)|rel c l N1 N2 N3 S (rel' & E)]; [exists rel; reflexivity| | |]; exists rel'; intros base; cbn [fold_left]; rewrite <- E; f_equal.
  - unfold go. destruct C as [->| ->]; reflexivity.
  - unfold go. destruct (String.eqb_spec c ""); [contradiction|]. destruct (String.eqb_spec c "."); [contradiction|]. destruct (String.eqb_spec c ".."); [contradiction|]. reflexivity.
Qed.

(** In a module at a directory, with a package below it whose import path says so: if the output package stays within the module, the output
    directory and the import path are at the same place below the module. *)
Theorem output_in_module wd module path rel dir pkg o :
  leads wd dir = rel ++ module -> leads [] pkg = rel ++ path -> is_abs o = false -> stays rel (parts o) ->
  exists rel', leads wd (join2 dir o) = rel' ++ module /\ leads [] (join2 pkg o) = rel' ++ path.
Proof.
  intros D P O S. destruct (stays_go _ _ S) as (rel' & E). exists rel'. rewrite !leads_join2 by exact O. unfold leads at 1 3. rewrite O, D, P. auto.
Qed.

(** ** What does not hold *)

Definition x_type : gtype := mkGType "Job" ["Job is a job."] [].
Definition x_root (m : option marks) (ts : list gtype) : root := mkRoot "/src/m/api" "example.com/m/api" 1 m true true (Some ts).

(** A package with a wrong marker is left out without an error. *)
Theorem apply_wrong_marker_refuted : exists r, r_marks r = None /\ sound_root r /\ forall fails header temp, header <> "" -> generate fails header temp true [r] = ([], Good).
Proof.
  exists (x_root None [x_type]). split; [reflexivity|]. split.
  - split; [discriminate|]. cbn. intros ts g [= <-] [<-|[]] I. cbn in I. intuition discriminate.
  - intros fails header temp N. unfold generate. apply String.eqb_neq in N. rewrite N. reflexivity.
Qed.

(** The help of the marker for types says that it generates for one type of a package that is not enabled; it does not. *)
Theorem apply_type_alone_refuted : exists r m t, r_marks r = Some m /\ In t (m_types m) /\ t_enable t = [true] /\ r_files r <> 0 /\
  forall fails header temp, header <> "" -> generate fails header temp true [r] = ([], Good).
Proof.
  exists (x_root (Some (mkMarks [] [] [mkTInfo "Job" [true] 0])) [x_type]), (mkMarks [] [] [mkTInfo "Job" [true] 0]), (mkTInfo "Job" [true] 0).
  repeat (split; [cbn; auto; discriminate|]). intros fails header temp N. unfold generate. apply String.eqb_neq in N. rewrite N. reflexivity.
Qed.

(** Nor does it disable a type that has the comment of genclient itself. *)
Theorem apply_type_disabled_refuted : exists r m t, r_marks r = Some m /\ In t (m_types m) /\ t_enable t = [false] /\
  forall fails header temp, header <> "" -> exists c g, In (Executed c) (fst (generate fails header temp true [r])) /\ In g (c_types c) /\ g_name g = t_name t /\ In "+genclient" (g_comments g).
Proof.
  exists (x_root (Some (mkMarks [true] [] [mkTInfo "Job" [false] 1])) [mkGType "Job" ["+genclient"] []]), (mkMarks [true] [] [mkTInfo "Job" [false] 1]), (mkTInfo "Job" [false] 1).
  repeat (split; [cbn; auto; discriminate|]). intros fails header temp N. unfold generate. apply String.eqb_neq in N. rewrite N. cbn.
  eexists _, _. split; [left; reflexivity|]. cbn. split; [left; reflexivity|]. split; [reflexivity|]. cbn. auto.
Qed.

(** A type with the comment of genclient has it twice. *)
Theorem apply_genclient_once_refuted : exists r m t, r_marks r = Some m /\ In t (m_types m) /\
  forall fails header temp, header <> "" -> exists c g, In (Executed c) (fst (generate fails header temp true [r])) /\ In g (c_types c) /\ g_name g = t_name t /\ g_comments g = ["+genclient"; "+genclient"].
Proof.
  exists (x_root (Some (mkMarks [true] [] [mkTInfo "Job" [] 1])) [mkGType "Job" ["+genclient"] []]), (mkMarks [true] [] [mkTInfo "Job" [] 1]), (mkTInfo "Job" [] 1).
  repeat (split; [cbn; auto; discriminate|]). intros fails header temp N. unfold generate. apply String.eqb_neq in N. rewrite N. cbn.
  eexists _, _. split; [left; reflexivity|]. cbn. split; [left; reflexivity|]. split; [reflexivity|]. cbn. auto.
Qed.

(** Out of the module, the import path is not where the output is. *)
Theorem output_in_module_refuted : exists module path dir pkg o, leads [] dir = module /\ leads [] pkg = path /\ is_abs o = false /\
  forall rel', ~ (leads [] (join2 dir o) = rel' ++ module /\ leads [] (join2 pkg o) = rel' ++ path).
Proof.
  exists ["m"; "src"], ["m"; "example.com"], "/src/m", "example.com/m", "../ac". repeat (split; [reflexivity|]). intros rel' [E _]. cbn in E.
  destruct rel' as [|a [|b [|c rel']]]; discriminate.
Qed.

(** If closing the temporary header fails, it stays. *)
Theorem apply_temp_left_refuted : forall fails f rs, generate fails "" (Some f) false rs = ([Created f], NoClose).
Proof. reflexivity. Qed.

(** ** Cases *)

Definition x_marks : marks := mkMarks [true] ["../client/ac"] [mkTInfo "Job" [] 1; mkTInfo "JobSpec" [] 0; mkTInfo "Extra" [true] 0; mkTInfo "Off" [false] 1].
Definition x_types : list gtype := [mkGType "Extra" [] []; x_type; mkGType "JobSpec" ["spec"] []; mkGType "Off" [] ["x"]].

Example apply_case : generate (fun _ => false) "" (Some "/tmp/h") true [x_root None []; x_root (Some x_marks) x_types] =
  ([Created "/tmp/h";
    Executed (mkCall "/tmp/h" "/src/m/client/ac" "example.com/m/client/ac"
      [mkGType "Extra" ["+genclient"] []; mkGType "Job" ["Job is a job."; "+genclient"] []; mkGType "JobSpec" ["spec"] []; mkGType "Off" [] ["x"]]);
    Removed "/tmp/h"], Good).
Proof. reflexivity. Qed.

Example apply_case_errors : snd (generate (fun _ => true) "h" None true
    [x_root (Some x_marks) x_types; mkRoot "/src/m/b" "example.com/m/b" 1 (Some x_marks) false true None; mkRoot "/src/m/c" "example.com/m/c" 0 (Some x_marks) false true None]) = Bad [EExecute; ELoad].
Proof. reflexivity. Qed.

Example sound_case : sound_root (x_root (Some x_marks) x_types) /\ active (x_root (Some x_marks) x_types) x_marks /\ stays ["api"] (parts "../client/ac").
Proof.
  split; [|split].
  - split.
    + cbn. intros m [= <-]. cbn. repeat constructor; cbn; intuition discriminate.
    + cbn. intros ts g [= <-] I. cbn in I. intuition (subst; cbn in *; intuition discriminate).
  - repeat split; [eexists; reflexivity|discriminate].
  - cbn. apply stays_up. apply stays_down; [discriminate|discriminate|discriminate|]. apply stays_down; [discriminate|discriminate|discriminate|]. constructor.
Qed.

Print Assumptions apply_runs.
Print Assumptions apply_errors.
Print Assumptions apply_called.
Print Assumptions apply_generate.
Print Assumptions output_in_module.
Print Assumptions apply_wrong_marker_refuted.
Print Assumptions apply_type_alone_refuted.
Print Assumptions apply_type_disabled_refuted.
Print Assumptions apply_genclient_once_refuted.
Print Assumptions output_in_module_refuted.
Print Assumptions apply_temp_left_refuted.
