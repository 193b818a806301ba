(** * Loading the roots: facts about paths, and about the passes *)

From Coq Require Import String Ascii List Bool Arith Lia.
Import ListNotations.
From Verif Require Import GoLib GoLibFacts RootsModel RootsSpec.
Open Scope string_scope.
Open Scope nat_scope.
Open Scope list_scope.

(** ** Paths *)

Definition plain (c : string) : Prop := has_char slash c = false.

Lemma parts_plain s : Forall plain (parts s).
Proof.
  unfold parts. induction s as [|a s IH]; [repeat constructor|]. cbn [split_char].
  destruct (Ascii.eqb a slash) eqn:E; [constructor; [reflexivity|exact IH]|].
  destruct (split_char slash s) as [|x l]; [repeat constructor; unfold plain; cbn; now rewrite E|].
  inversion_clear IH. constructor; [|assumption]. unfold plain in *. cbn. now rewrite E.
Qed.

Lemma parts_join l : l <> [] -> Forall plain l -> parts (join "/" l) = l.
Proof. intros N F. apply (split_join_char slash); assumption. Qed.

Lemma parts_nonempty s : parts s <> [].
Proof. unfold parts. destruct s; cbn; [discriminate|]. destruct (Ascii.eqb a slash); [discriminate|]. now destruct (split_char slash s). Qed.

Lemma parts_abs s : is_abs s = true -> exists s', s = String slash s' /\ parts s = "" :: parts s'.
Proof.
  destruct s as [|a s]; [discriminate|]. cbn [is_abs]. intros E. apply Ascii.eqb_eq in E as ->.
  exists s. split; [reflexivity|]. unfold parts. cbn [split_char]. now rewrite Ascii.eqb_refl.
Qed.

Lemma parts_rel s : is_abs s = false -> s <> "" -> exists c l, parts s = c :: l /\ c <> "".
Proof.
  destruct s as [|a s]; [congruence|]. cbn [is_abs]. intros E _. unfold parts. cbn [split_char]. rewrite E.
  destruct (split_char slash s) as [|x l]; eexists; eexists; (split; [reflexivity|discriminate]).
Qed.

Lemma join_parts s : join "/" (parts s) = s.
Proof.
  unfold parts. induction s as [|a s IH]; [reflexivity|]. cbn [split_char].
  destruct (Ascii.eqb a slash) eqn:E.
  - apply Ascii.eqb_eq in E as ->. destruct (split_char slash s) as [|x l] eqn:Es; [now destruct (parts_nonempty s)|].
    change (join "/" ("" :: x :: l)) with (String slash (join "/" (x :: l))). now rewrite IH.
  - destruct (split_char slash s) as [|x l] eqn:Es; [now destruct (parts_nonempty s)|].
    destruct l; cbn [join] in *; rewrite <- IH; reflexivity.
Qed.

(** ** Clean *)

Definition name (c : string) : Prop := c <> "" /\ c <> "." /\ c <> "..".
(** What Clean builds: ".." only below, and none if it is rooted. *)
Fixpoint normal (rooted : bool) (st : list string) : Prop :=
  match st with
  | [] => True
  | c :: st' => if String.eqb c ".." then rooted = false /\ Forall (eq "..") st' else name c /\ normal rooted st'
  end.

Lemma normal_dots rooted st : rooted = false -> Forall (eq "..") st -> normal rooted st.
Proof. intros -> F. destruct F as [|c st <- F]; cbn; auto. Qed.

Lemma clean_step_normal rooted st c : normal rooted st -> normal rooted (clean_step rooted st c).
Proof.
  intros N. unfold clean_step. destruct (String.eqb_spec c "") as [->|H1]; [exact N|]. destruct (String.eqb_spec c ".") as [->|H2]; [exact N|].
  cbn [orb]. destruct (String.eqb_spec c "..") as [->|H3].
  - destruct st as [|t st']; [destruct rooted; cbn; auto|]. cbn [normal] in N.
    destruct (String.eqb_spec t "..") as [->|Ht]; [|apply N]. cbn. destruct N as [-> F]. auto.
  - cbn. rewrite (proj2 (String.eqb_neq _ _) H3). split; [repeat split; assumption|exact N].
Qed.

Lemma clean_step_plain rooted st c : plain c -> Forall plain st -> Forall plain (clean_step rooted st c).
Proof.
  intros P F. unfold clean_step. destruct (String.eqb c "" || String.eqb c "."); [exact F|].
  destruct (String.eqb c "..").
  - destruct F as [|t st' Pt F]; [destruct rooted; repeat constructor|]. destruct (String.eqb t ".."); [repeat constructor; assumption|exact F].
  - constructor; assumption.
Qed.

Lemma clean_fold rooted cs : forall st, normal rooted st -> Forall plain st -> Forall plain cs ->
  normal rooted (fold_left (clean_step rooted) cs st) /\ Forall plain (fold_left (clean_step rooted) cs st).
Proof.
  induction cs as [|c cs IH]; intros st N F P; [now split|]. inversion_clear P. cbn [fold_left].
  apply IH; [now apply clean_step_normal|now apply clean_step_plain|assumption].
Qed.

Lemma go_name d c : name c -> go d c = c :: d.
Proof. intros (H1 & H2 & H3). unfold go. now rewrite (proj2 (String.eqb_neq _ _) H1), (proj2 (String.eqb_neq _ _) H2), (proj2 (String.eqb_neq _ _) H3). Qed.

Lemma clean_leads rooted d0 (Hd : rooted = true -> d0 = []) cs : forall st, normal rooted st ->
  fold_left go (rev (fold_left (clean_step rooted) cs st)) d0 = fold_left go cs (fold_left go (rev st) d0).
Proof.
  induction cs as [|c cs IH]; intros st N; [reflexivity|]. cbn [fold_left]. rewrite IH by now apply clean_step_normal.
  f_equal. unfold clean_step. destruct (String.eqb_spec c "") as [->|H1]; [reflexivity|]. destruct (String.eqb_spec c ".") as [->|H2]; [reflexivity|].
  cbn [orb]. destruct (String.eqb_spec c "..") as [->|H3].
  - destruct st as [|t st']; [destruct rooted; [now rewrite Hd|reflexivity]|]. cbn [normal] in N.
    destruct (String.eqb_spec t "..") as [->|Ht].
    + cbn [rev]. rewrite !fold_left_app. reflexivity.
    + destruct N as [N _]. cbn [rev]. rewrite fold_left_app. cbn [fold_left]. now rewrite (go_name _ t N).
  - cbn [rev]. rewrite fold_left_app. cbn [fold_left]. now rewrite go_name.
Qed.

(** What a cleaned path is made of. *)
Definition stack (s : string) : list string := fold_left (clean_step (is_abs s)) (parts s) [].
Lemma stack_normal s : normal (is_abs s) (stack s) /\ Forall plain (stack s).
Proof. apply clean_fold; [exact I|constructor|apply parts_plain]. Qed.

Lemma leads_stack from s : leads from s = fold_left go (rev (stack s)) (if is_abs s then [] else from).
Proof. unfold stack. rewrite clean_leads; [reflexivity|now intros ->|exact I]. Qed.

(** The elements of what [render] gives. *)
Lemma parts_render rooted st : normal rooted st -> Forall plain st ->
  parts (render rooted st) = (if rooted then [""] else []) ++ match st with [] => [if rooted then "" else "."] | _ => rev st end.
Proof.
  intros N F. unfold render. destruct rooted.
  - unfold parts. change ("/" ++ join "/" (rev st))%string with (String slash (join "/" (rev st))). cbn [split_char].
    rewrite Ascii.eqb_refl. cbn [app]. f_equal. destruct st as [|c st]; [reflexivity|].
    apply parts_join; [cbn; now destruct (rev st)|now apply Forall_rev].
  - destruct st as [|c st]; [reflexivity|]. apply parts_join; [cbn; now destruct (rev st)|now apply Forall_rev].
Qed.

Lemma normal_nonempty rooted st c : normal rooted st -> In c st -> c <> "" /\ c <> ".".
Proof.
  induction st as [|x st IH]; intros N I; [destruct I|]. cbn in N. destruct (String.eqb_spec x "..") as [->|H].
  - destruct N as [_ F]. destruct I as [<-|I]; [easy|]. apply (proj1 (Forall_forall _ _) F) in I as <-. easy.
  - destruct N as [(A & B & _) N]. destruct I as [<-|I]; [now split|]. now apply IH.
Qed.

Lemma is_abs_parts s : is_abs s = match parts s with c :: _ :: _ => String.eqb c "" | _ => false end.
Proof.
  destruct s as [|a s]; [reflexivity|]. cbn [is_abs]. unfold parts. cbn [split_char]. destruct (Ascii.eqb a slash) eqn:E.
  - destruct (split_char slash s) eqn:Es; [now destruct (parts_nonempty s)|reflexivity].
  - destruct (split_char slash s) as [|x [|y l]]; reflexivity.
Qed.

Lemma is_abs_render rooted st : normal rooted st -> Forall plain st -> is_abs (render rooted st) = rooted.
Proof.
  intros N F. rewrite is_abs_parts, parts_render by assumption. destruct rooted; cbn [app].
  - destruct st as [|c st]; [reflexivity|]. cbn [rev]. destruct (rev st); reflexivity.
  - destruct st as [|c st]; [reflexivity|]. destruct (rev (c :: st)) as [|x [|y l]] eqn:E; try reflexivity.
    apply String.eqb_neq. apply (normal_nonempty false (c :: st)); [exact N|]. apply in_rev. rewrite E. now left.
Qed.

Lemma is_abs_clean s : is_abs (clean s) = is_abs s.
Proof. apply is_abs_render; apply stack_normal. Qed.

Lemma leads_render from rooted st : normal rooted st -> Forall plain st ->
  leads from (render rooted st) = fold_left go (rev st) (if rooted then [] else from).
Proof.
  intros N F. unfold leads. rewrite is_abs_render, parts_render by assumption.
  destruct rooted, st; reflexivity.
Qed.

(** Cleaning a path does not change where it leads. *)
Lemma leads_clean from s : leads from (clean s) = leads from s.
Proof. unfold clean. rewrite leads_render by apply stack_normal. now rewrite leads_stack. Qed.

Lemma parts_slash a b : parts (a ++ "/" ++ b)%string = parts a ++ parts b.
Proof.
  unfold parts. induction a as [|x a IH]; [reflexivity|]. change (String x a ++ "/" ++ b)%string with (String x (a ++ "/" ++ b))%string. cbn [split_char].
  rewrite IH. destruct (Ascii.eqb x slash); [reflexivity|].
  destruct (split_char slash a) eqn:E; [now destruct (parts_nonempty a)|reflexivity].
Qed.

Lemma is_abs_app a b : a <> "" -> is_abs (a ++ b)%string = is_abs a.
Proof. now destruct a. Qed.

(** Join: first the one, then the other. *)
Lemma leads_join2 from a b : is_abs b = false -> leads from (join2 a b) = leads (leads from a) b.
Proof.
  intros Hb. destruct a as [|x a], b as [|y b]; try (cbn [join2]; now rewrite leads_clean).
  - reflexivity.
  - cbn [join2]. rewrite leads_clean. unfold leads at 1. rewrite parts_slash, is_abs_app by discriminate. rewrite fold_left_app.
    unfold leads at 1. now rewrite Hb.
Qed.

(** ** Base and Dir, of cleaned paths *)

Lemma clean_shape s : exists st, clean s = render (is_abs s) st /\ normal (is_abs s) st /\ Forall plain st.
Proof. exists (stack s). split; [reflexivity|apply stack_normal]. Qed.

Lemma base_render rooted st : normal rooted st -> Forall plain st ->
  base (render rooted st) = match st with [] => if rooted then "/" else "." | c :: _ => c end.
Proof.
  intros N F. unfold base. destruct (String.eqb_spec (render rooted st) "") as [E|_].
  - assert (E' := parts_render _ _ N F). rewrite E in E'. change (parts "") with [""] in E'.
    destruct rooted; [destruct st as [|c st]; [discriminate E'|exfalso]; cbn [app rev] in E'; now destruct (rev st)|].
    destruct st as [|c st]; [discriminate E'|]. exfalso. cbn [app rev] in E'. destruct (rev st) as [|x l]; [|now destruct l].
    injection E' as <-. now destruct (normal_nonempty _ _ "" N (or_introl eq_refl)).
  - rewrite parts_render by assumption. destruct st as [|c st]; [now destruct rooted|].
    assert (X : filter (fun c => negb (String.eqb c "")) (rev (c :: st)) = rev (c :: st)).
    { clear - N. assert (A : forall x, In x (rev (c :: st)) -> x <> "").
      { intros x I. apply in_rev in I. now apply (normal_nonempty _ _ x N). }
      induction (rev (c :: st)) as [|x l IH]; [reflexivity|]. cbn. rewrite (proj2 (String.eqb_neq _ _) (A x (or_introl eq_refl))). cbn.
      f_equal. apply IH. intros y I. apply A. now right. }
    destruct rooted; cbn [app filter String.eqb negb]; rewrite X, rev_involutive; reflexivity.
Qed.

Lemma dir_render from rooted c st : normal rooted (c :: st) -> Forall plain (c :: st) ->
  leads from (dir (render rooted (c :: st))) = fold_left go (rev st) (if rooted then [] else from).
Proof.
  intros N F. unfold dir. rewrite leads_clean, parts_render by assumption. cbn [rev].
  rewrite app_assoc, removelast_last. inversion_clear F as [|? ? _ F']. set (l := (if rooted then [""] else []) ++ rev st).
  assert (P : Forall plain (l ++ [""])).
  { apply Forall_app. split; [|repeat constructor]. apply Forall_app. split; [destruct rooted; repeat constructor|now apply Forall_rev]. }
  assert (Nn : l ++ [""] <> []) by now destruct l.
  unfold leads. rewrite is_abs_parts, parts_join by assumption. rewrite fold_left_app. cbn [fold_left]. unfold go at 1. cbn [String.eqb orb].
  unfold l. destruct rooted; cbn [app].
  - now destruct (rev st).
  - destruct (rev st) as [|x m] eqn:E; [reflexivity|]. cbn [app].
    assert (X : x <> "").
    { apply (normal_nonempty false (c :: st)); [exact N|]. right. apply in_rev. rewrite E. now left. }
    destruct (m ++ [""]); [reflexivity|]. now rewrite (proj2 (String.eqb_neq _ _) X).
Qed.

(** What the two passes make of a path. *)
Lemma about_path wd r : ~ In "..." wd -> clean r = r -> 
  (base r = "..." -> about (leads wd r) = (leads wd (dir r), "./...")) /\
  (base r <> "..." -> about (leads wd r) = (leads wd r, "./.")).
Proof.
  intros W C. destruct (clean_shape r) as (st & E & N & F). rewrite C in E.
  destruct st as [|c st].
  - assert (B : base r = if is_abs r then "/" else ".") by (rewrite E at 1; now rewrite base_render).
    assert (L : leads wd r = if is_abs r then [] else wd) by (rewrite E at 1; now rewrite leads_render).
    rewrite B, L. destruct (is_abs r); (split; [discriminate|intros _]); [reflexivity|].
    destruct wd as [|x wd]; [reflexivity|]. cbn [about]. destruct (String.eqb_spec x "...") as [->|_]; [now destruct W; left|reflexivity].
  - assert (B : base r = c) by (rewrite E at 1; now rewrite base_render).
    assert (L : leads wd r = go (fold_left go (rev st) (if is_abs r then [] else wd)) c).
    { rewrite E at 1. rewrite leads_render by assumption. cbn [rev]. now rewrite fold_left_app. }
    assert (D : leads wd (dir r) = fold_left go (rev st) (if is_abs r then [] else wd)) by (rewrite E at 1; now rewrite dir_render).
    rewrite B, L, D. clear B L D E C. split; intros H.
    + subst c. reflexivity.
    + cbn [normal] in N. destruct (String.eqb_spec c "..") as [->|Hc].
      * destruct N as [Na F']. rewrite Na. change (go ?d "..") with (tl d).
        assert (X : forall l d, Forall (eq "..") l -> ~ In "..." d -> ~ In "..." (fold_left go l d)).
        { induction l as [|x l IH]; intros d Fl Hd; [exact Hd|]. inversion_clear Fl as [|? ? <- Fl']. cbn [fold_left]. apply IH; [exact Fl'|].
          change (go d "..") with (tl d). destruct d; [exact Hd|]. intros I. apply Hd. now right. }
        specialize (X (rev st) wd (Forall_rev F') W). destruct (fold_left go (rev st) wd) as [|x [|y d]]; [reflexivity|reflexivity|].
        cbn [tl about]. destruct (String.eqb_spec y "...") as [->|_]; [|reflexivity]. destruct X. right. now left.
      * destruct N as [N _]. rewrite (go_name _ c N). cbn [about]. now rewrite (proj2 (String.eqb_neq _ _) H).
Qed.

Lemma normal_stack rooted l : forall st, normal rooted (rev l ++ st) -> fold_left (clean_step rooted) l st = rev l ++ st.
Proof.
  induction l as [|c l IH]; intros st N; [reflexivity|]. cbn [fold_left rev] in *. rewrite <- app_assoc in *. cbn [app] in *.
  assert (E : clean_step rooted st c = c :: st).
  { assert (Nc : normal rooted (c :: st)).
    { clear - N. revert N. induction (rev l) as [|x m IH]; [exact (fun H => H)|]. cbn [app normal]. destruct (String.eqb_spec x "..") as [->|_].
      - intros [R F]. change (normal rooted (c :: st)). apply normal_dots; [exact R|]. apply Forall_app in F. apply F.
      - intros [_ H]. exact (IH H). }
    unfold clean_step. cbn [normal] in Nc. destruct (String.eqb_spec c "..") as [->|_].
    - destruct Nc as [-> Fd]. cbn. destruct Fd as [|t st <- Fd]; reflexivity.
    - destruct Nc as [(H1 & H2 & H3) _]. now rewrite (proj2 (String.eqb_neq _ _) H1), (proj2 (String.eqb_neq _ _) H2). }
  rewrite E. now apply IH.
Qed.

Lemma clean_render rooted st : normal rooted st -> Forall plain st -> clean (render rooted st) = render rooted st.
Proof.
  intros N F. unfold clean. rewrite is_abs_render by assumption. f_equal. rewrite parts_render by assumption.
  assert (X : fold_left (clean_step rooted) (rev st) [] = st).
  { rewrite <- (app_nil_r st) in N. rewrite <- (rev_involutive st) in N. rewrite (normal_stack _ _ _ N). now rewrite app_nil_r, rev_involutive. }
  destruct rooted, st as [|c st]; try reflexivity; exact X.
Qed.

Lemma clean_clean s : clean (clean s) = clean s.
Proof. apply clean_render; apply stack_normal. Qed.

Lemma clean_join2 a b : a <> "" \/ b <> "" -> clean (join2 a b) = join2 a b.
Proof. intros H. destruct a, b; cbn [join2]; try apply clean_clean. now destruct H. Qed.
Lemma clean_nonempty s : clean s <> "".
Proof.
  destruct (clean_shape s) as (st & E & N & F). rewrite E. clear E. revert N. generalize (is_abs s). clear s. intros rooted N E.
  assert (X := parts_render _ _ N F). rewrite E in X. change (parts "") with [""] in X. 
  destruct rooted; [destruct st as [|c st]; [discriminate X|]; cbn [app rev] in X; now destruct (rev st)|].
  destruct st as [|c st]; [discriminate X|]. cbn [app rev] in X. destruct (rev st) as [|x l] eqn:Er; [|now destruct l].
  injection X as <-. now destruct (normal_nonempty _ _ "" N (or_introl eq_refl)).
Qed.

(** A root as an absolute path. *)
Lemma absolute_leads getwd wd cfg_dir r a : (forall d, getwd = Some d -> leads wd d = wd) -> absolute getwd cfg_dir r = Some a ->
  clean a = a /\ leads wd a = leads (leads wd cfg_dir) r.
Proof.
  intros G. unfold absolute. destruct (is_abs (clean r)) eqn:A.
  - intros [= <-]. split; [apply clean_clean|]. rewrite leads_clean. unfold leads. rewrite is_abs_clean in A. now rewrite A.
  - destruct (String.eqb_spec cfg_dir "") as [->|H]; cbn [negb].
    + destruct getwd as [d|]; [|discriminate]. intros [= <-]. split; [apply clean_join2; right; apply clean_nonempty|].
      rewrite leads_join2 by exact A. rewrite leads_clean. now rewrite (G d).
    + intros [= <-]. split; [apply clean_join2; now left|]. rewrite leads_join2 by exact A. now rewrite leads_clean.
Qed.

(** ** The passes *)

(** A path that Join made of a directory and "...". *)
Lemma nested_path wd d : about (leads wd (join2 d "...")) = (leads wd d, "./...").
Proof. rewrite leads_join2 by reflexivity. reflexivity. Qed.

Lemma base_clean_file wd p : ~ In "go.mod" wd -> clean p = p ->
  if String.eqb (base p) "go.mod" then exists d, leads wd p = "go.mod" :: d /\ leads wd (dir p) = d
  else forall d, leads wd p <> "go.mod" :: d.
Proof.
  intros W C. destruct (clean_shape p) as (st & E & N & F). rewrite C in E.
  destruct st as [|c st].
  - assert (B : base p = if is_abs p then "/" else ".") by (rewrite E at 1; now rewrite base_render).
    assert (L : leads wd p = if is_abs p then [] else wd) by (rewrite E at 1; now rewrite leads_render).
    rewrite B, L. destruct (is_abs p); cbn [String.eqb Ascii.eqb Bool.eqb]; intros d X; [discriminate|]. apply W. rewrite X. now left.
  - assert (B : base p = c) by (rewrite E at 1; now rewrite base_render).
    assert (L : leads wd p = go (fold_left go (rev st) (if is_abs p then [] else wd)) c).
    { rewrite E at 1. rewrite leads_render by assumption. cbn [rev]. now rewrite fold_left_app. }
    assert (D : leads wd (dir p) = fold_left go (rev st) (if is_abs p then [] else wd)) by (rewrite E at 1; now rewrite dir_render).
    rewrite B, L, D. clear B L D E C. destruct (String.eqb_spec c "go.mod") as [->|H].
    + eexists. split; reflexivity.
    + cbn [normal] in N. destruct (String.eqb_spec c "..") as [->|Hc].
      * destruct N as [Na F']. rewrite Na. change (go ?d "..") with (tl d).
        assert (X : forall l d, Forall (eq "..") l -> ~ In "go.mod" d -> ~ In "go.mod" (fold_left go l d)).
        { induction l as [|x l IH]; intros d Fl Hd; [exact Hd|]. inversion_clear Fl as [|? ? <- Fl']. cbn [fold_left]. apply IH; [exact Fl'|].
          change (go d "..") with (tl d). destruct d; [exact Hd|]. intros I. apply Hd. now right. }
        specialize (X (rev st) wd (Forall_rev F') W). intros d Y. apply X. destruct (fold_left go (rev st) wd) as [|x m]; [discriminate Y|].
        cbn [tl] in Y. subst m. right. now left.
      * destruct N as [N _]. rewrite (go_name _ c N). congruence.
Qed.

Lemma nested_modules wd es : ~ In "go.mod" wd -> (forall p b, In (p, b) es -> clean p = p) ->
  map (fun r => about (leads wd r)) (nested es) = modules wd es.
Proof.
  intros W C. unfold nested, modules. induction es as [|[p b] es IH]; [reflexivity|]. cbn [flat_map]. rewrite map_app.
  rewrite IH by (intros; apply (C p0 b0); now right). f_equal. cbn [fst snd]. destruct b; [reflexivity|]. cbn [negb andb].
  assert (X := base_clean_file wd p W (C p false (or_introl eq_refl))). destruct (String.eqb (base p) "go.mod").
  - destruct X as (d & E & D). cbn [map]. rewrite nested_path, E, D. reflexivity.
  - cbn [map]. destruct (leads wd p) as [|c d]; [reflexivity|]. destruct (String.eqb_spec c "go.mod") as [->|_]; [now destruct (X d)|reflexivity].
Qed.

Lemma nested_clean es r : In r (nested es) -> clean r = r.
Proof.
  unfold nested. rewrite in_flat_map. intros ([p b] & _ & H). cbn [fst snd] in H. destruct (negb b && String.eqb (base p) "go.mod"); [|destruct H].
  destruct H as [<-|[]]. apply clean_join2. now right.
Qed.

Section Passes.
Variable load : nat -> call -> option (list pkg).
Variable getwd : option string.
Variable walk : string -> option (list (string * bool)).
Variable wd : place.
Hypothesis getwd_is : forall d, getwd = Some d -> is_abs d = true /\ leads [] d = wd.
Hypothesis wd_dots : ~ In "..." wd.
Hypothesis wd_mod : ~ In "go.mod" wd.
Hypothesis walk_clean : forall d es p b, walk d = Some es -> In (p, b) es -> clean p = p.

Definition walked (p : place * string) (es : list (string * bool)) : Prop :=
  if String.eqb (snd p) "./..." then exists d, leads wd d = fst p /\ walk d = Some es else es = [].

Lemma first_pass_run cfg_dir rs : forall as_ added, first_pass getwd walk cfg_dir rs = Some (as_, added) ->
  (forall r, In r (as_ ++ added) -> clean r = r) /\
  map (fun r => about (leads wd r)) as_ = map (fun r => about (leads (leads wd cfg_dir) r)) rs /\
  exists found, Forall2 walked (map (fun r => about (leads (leads wd cfg_dir) r)) rs) found /\
    map (fun r => about (leads wd r)) added = flat_map (modules wd) found.
Proof.
  induction rs as [|r rs IH]; intros as_ added; cbn [first_pass].
  - intros [= <- <-]. split; [intros ? []|]. split; [reflexivity|]. exists []. split; [constructor|reflexivity].
  - destruct (absolute getwd cfg_dir r) as [a|] eqn:A; [|discriminate].
    assert (G : forall d, getwd = Some d -> leads wd d = wd).
    { intros d Hd. destruct (getwd_is d Hd) as [Ha L]. unfold leads in *. now rewrite Ha in *. }
    destruct (absolute_leads getwd wd cfg_dir r a G A) as (Ca & La). destruct (about_path wd a wd_dots Ca) as (B1 & B2). rewrite La in B1, B2.
    destruct (if String.eqb (base a) "..." then _ else _) as [new|] eqn:Wn; [|discriminate].
    destruct (first_pass getwd walk cfg_dir rs) as [[as' added']|]; [|discriminate]. intros [= <- <-].
    destruct (IH _ _ eq_refl) as (I1 & I2 & found & I3 & I4).
    assert (K : exists es, walked (about (leads (leads wd cfg_dir) r)) es /\ map (fun r => about (leads wd r)) new = modules wd es /\ forall x, In x new -> clean x = x).
    { destruct (String.eqb_spec (base a) "...") as [E|E].
      - destruct (walk (dir a)) as [es|] eqn:Ew; [|discriminate]. injection Wn as <-. exists es. split; [|split].
        + rewrite (B1 E). exists (dir a). now split.
        + apply nested_modules; [exact wd_mod|]. intros p b Hp. now apply (walk_clean (dir a) es p b).
        + intros x. apply nested_clean.
      - injection Wn as <-. exists []. split; [|split; [reflexivity|intros x []]]. rewrite (B2 E). reflexivity. }
    destruct K as (es & K1 & K2 & K3). split; [|split].
    + intros x Hx. cbn [app] in Hx. destruct Hx as [<-|Hx]; [exact Ca|]. rewrite !in_app_iff in Hx. destruct Hx as [Hx|[Hx|Hx]];
        [apply I1; apply in_or_app; now left|now apply K3|apply I1; apply in_or_app; now right].
    + cbn [map]. f_equal; [|exact I2]. now rewrite La.
    + exists (es :: found). cbn [map flat_map]. split; [constructor; assumption|]. rewrite map_app, K2, I4. reflexivity.
Qed.

(** The first pass fails only for a reason. *)
Lemma first_pass_fails cfg_dir rs : first_pass getwd walk cfg_dir rs = None ->
  (cfg_dir = "" /\ getwd = None /\ exists r, In r rs /\ is_abs r = false) \/
  exists r d, In r rs /\ about (leads (leads wd cfg_dir) r) = (leads wd d, "./...") /\ walk d = None.
Proof.
  induction rs as [|r rs IH]; cbn [first_pass]; [discriminate|].
  destruct (absolute getwd cfg_dir r) as [a|] eqn:A.
  2:{ intros _. left. unfold absolute in A. destruct (is_abs (clean r)) eqn:Ar; [discriminate|]. destruct (String.eqb_spec cfg_dir "") as [->|]; [|discriminate].
      cbn [negb] in A. destruct getwd; [discriminate|]. split; [easy|]. split; [easy|]. exists r. split; [now left|]. now rewrite is_abs_clean in Ar. }
  assert (G : forall d, getwd = Some d -> leads wd d = wd).
  { intros d Hd. destruct (getwd_is d Hd) as [Ha L]. unfold leads in *. now rewrite Ha in *. }
  destruct (absolute_leads getwd wd cfg_dir r a G A) as (Ca & La). destruct (about_path wd a wd_dots Ca) as (B1 & _). rewrite La in B1.
  destruct (if String.eqb (base a) "..." then _ else _) as [new|] eqn:Wn.
  - destruct (first_pass getwd walk cfg_dir rs) as [[as' added']|]; [discriminate|]. intros _. destruct (IH eq_refl) as [(H1 & H2 & x & Hx & H3)|(x & d & Hx & H)].
    + left. split; [easy|]. split; [easy|]. exists x. split; [now right|easy].
    + right. exists x, d. split; [now right|easy].
  - intros _. right. destruct (String.eqb_spec (base a) "...") as [E|E]; [|discriminate]. destruct (walk (dir a)) eqn:Ew; [discriminate|].
    exists r, (dir a). split; [now left|]. split; [now apply B1|exact Ew].
Qed.

(** Packages loaded by the calls so far. *)
Definition loaded (s : lstate) (ls : list (list pkg)) : Prop :=
  List.length ls = List.length (l_calls s) /\ (forall i c, nth_error (l_calls s) i = Some c -> load i c = nth_error ls i) /\
  l_roots s = firsts (concat ls) /\ forall x, In x (l_ids s) <-> In x (map p_id (concat ls)).

Lemma firsts_app l l' : firsts (l ++ l') = firsts l ++ filter (fun q => negb (existsb (String.eqb (p_id q)) (map p_id l))) (firsts l').
Proof.
  induction l as [|p l IH]; cbn [app firsts map existsb].
  - cbn [app negb]. induction (firsts l') as [|q m IHm]; [reflexivity|]. cbn [filter]. f_equal. exact IHm.
  - rewrite IH, filter_app. cbn [app]. f_equal. f_equal. generalize (firsts l'). intros m. induction m as [|q m IHm]; [reflexivity|]. cbn [filter].
    destruct (existsb (String.eqb (p_id q)) (map p_id l)); cbn [negb].
    + rewrite orb_true_r. exact IHm.
    + rewrite orb_false_r. cbn [filter]. destruct (String.eqb (p_id q) (p_id p)); cbn [negb]; [exact IHm|now rewrite IHm].
Qed.

Lemma filter_comm {A} (f g : A -> bool) l : filter f (filter g l) = filter g (filter f l).
Proof. induction l as [|x l IH]; [reflexivity|]. cbn. destruct (g x) eqn:G, (f x) eqn:F; cbn; rewrite ?G, ?F, IH; reflexivity. Qed.
Lemma filter_ext' {A} (f g : A -> bool) l : (forall x, f x = g x) -> filter f l = filter g l.
Proof. intros H. induction l as [|x l IH]; [reflexivity|]. cbn. now rewrite H, IH. Qed.

Lemma filter_orb {A} (f g : A -> bool) l : filter (fun x => negb (f x || g x)) l = filter (fun x => negb (f x)) (filter (fun x => negb (g x)) l).
Proof. induction l as [|x l IH]; [reflexivity|]. cbn. destruct (f x) eqn:F, (g x) eqn:G; cbn; rewrite ?F, ?IH; reflexivity. Qed.

Lemma add_new_run ps : forall ids, let '(new, ids') := add_new ps ids in
  new = filter (fun q => negb (existsb (String.eqb (p_id q)) ids)) (firsts ps) /\ forall x, In x ids' <-> In x ids \/ In x (map p_id ps).
Proof.
  induction ps as [|p ps IH]; intros ids; cbn [add_new].
  - split; [reflexivity|]. intros x. cbn. tauto.
  - destruct (existsb (String.eqb (p_id p)) ids) eqn:E.
    + specialize (IH ids). destruct (add_new ps ids) as [new ids']. destruct IH as (-> & H). split.
      * cbn [firsts filter]. rewrite E. cbn [negb]. rewrite filter_comm.
        apply existsb_exists in E. destruct E as (y & Hy & E). apply String.eqb_eq in E. subst y.
        induction (firsts ps) as [|q m IHm]; [reflexivity|]. cbn [filter]. destruct (existsb (String.eqb (p_id q)) ids) eqn:Eq; cbn [negb]; [exact IHm|].
        cbn [filter]. destruct (String.eqb_spec (p_id q) (p_id p)) as [X|_]; cbn [negb]; [|f_equal; exact IHm].
        exfalso. rewrite X in Eq. assert (Y : existsb (String.eqb (p_id p)) ids = true) by (apply existsb_exists; exists (p_id p); split; [exact Hy|apply String.eqb_refl]). congruence.
      * intros x. rewrite H. cbn [map]. split; [intros [X|X]; [now left|right; now right]|]. intros [X|[<-|X]]; [now left| |now right].
        left. apply existsb_exists in E. destruct E as (y & Hy & E). apply String.eqb_eq in E. now subst y.
    + specialize (IH (p_id p :: ids)). destruct (add_new ps (p_id p :: ids)) as [new ids']. destruct IH as (-> & H). split.
      * cbn [firsts filter]. rewrite E. cbn [negb]. f_equal. rewrite filter_comm. cbn [existsb]. apply filter_orb.
      * intros x. rewrite H. cbn [map In]. tauto.
Qed.

Lemma load_packages_run roots s ls : loaded s ls ->
  let '(s', ok) := load_packages load roots s in
  l_dir s' = l_dir s /\ l_calls s' = l_calls s ++ [(l_dir s, roots)] /\
  if ok then exists l, loaded s' (ls ++ [l])
  else load (List.length (l_calls s)) (l_dir s, roots) = None.
Proof.
  intros (L1 & L2 & L3 & L4). unfold load_packages. destruct (load (List.length (l_calls s)) (l_dir s, roots)) as [ps|] eqn:E; [|easy].
  assert (A := add_new_run ps (l_ids s)). destruct (add_new ps (l_ids s)) as [new ids]. destruct A as (-> & A). cbn [l_dir l_calls].
  split; [easy|]. split; [easy|]. exists ps. split; [|split; [|split]]; cbn [l_calls l_roots l_ids].
  - rewrite !app_length. now rewrite L1.
  - intros i c H. destruct (lt_dec i (List.length (l_calls s))) as [Hi|Hi].
    + rewrite nth_error_app1 in H by exact Hi. rewrite nth_error_app1 by (rewrite L1; exact Hi). now apply L2.
    + rewrite nth_error_app2 in H by lia. rewrite nth_error_app2 by (rewrite L1; lia). rewrite L1.
      destruct (i - List.length (l_calls s)) as [|k] eqn:Ek; [|now destruct k]. cbn in H. injection H as <-. assert (i = List.length (l_calls s)) as -> by lia. exact E.
  - rewrite concat_app. cbn [concat]. rewrite app_nil_r, firsts_app, L3. f_equal. apply filter_ext'. intros q. f_equal.
    assert (I := L4 (p_id q)). destruct (existsb (String.eqb (p_id q)) (l_ids s)) eqn:X, (existsb (String.eqb (p_id q)) (map p_id (concat ls))) eqn:Y; try reflexivity; exfalso.
    + apply existsb_exists in X. destruct X as (y & Hy & Ey). apply String.eqb_eq in Ey. subst y. apply I in Hy.
      assert (existsb (String.eqb (p_id q)) (map p_id (concat ls)) = true) by (apply existsb_exists; exists (p_id q); split; [exact Hy|apply String.eqb_refl]). congruence.
    + apply existsb_exists in Y. destruct Y as (y & Hy & Ey). apply String.eqb_eq in Ey. subst y. apply I in Hy.
      assert (existsb (String.eqb (p_id q)) (l_ids s) = true) by (apply existsb_exists; exists (p_id q); split; [exact Hy|apply String.eqb_refl]). congruence.
  - intros x. rewrite A, L4, concat_app, map_app, in_app_iff. cbn [concat]. now rewrite app_nil_r.
Qed.

(** What is known after an error: the last call failed, the others did not. *)
Definition failed (calls : list call) : Prop :=
  exists calls' c, calls = calls' ++ [c] /\ load (List.length calls') c = None /\
    forall i c', nth_error calls' i = Some c' -> load i c' <> None.

Lemma loaded_ok s ls : loaded s ls -> forall i c, nth_error (l_calls s) i = Some c -> load i c <> None.
Proof.
  intros (L1 & L2 & _) i c H E. rewrite (L2 i c H) in E. apply nth_error_None in E. assert (X : nth_error (l_calls s) i <> None) by congruence.
  apply nth_error_Some in X. lia.
Qed.

Lemma second_pass_run rs : (forall r, In r rs -> clean r = r) -> forall s ls, loaded s ls ->
  let '(s', ok) := second_pass load rs s in
  exists more, l_calls s' = l_calls s ++ more /\
  if ok then (exists ls', loaded s' ls') /\ map (called wd) more = map (fun r => Some (about (leads wd r))) rs
  else failed (l_calls s').
Proof.
  induction rs as [|r rs IH]; intros Hc s ls L; cbn [second_pass].
  - exists []. rewrite app_nil_r. split; [easy|]. split; [now exists ls|easy].
  - destruct (if String.eqb (base r) "..." then (dir r, base r) else (r, ".")) as [d b] eqn:Edb.
    assert (Q : called wd (d, [("./" ++ b)%string]) = Some (about (leads wd r))).
    { destruct (about_path wd r wd_dots (Hc r (or_introl eq_refl))) as (B1 & B2). destruct (String.eqb_spec (base r) "...") as [E|E].
      - injection Edb as <- <-. rewrite (B1 E), E. reflexivity.
      - injection Edb as <- <-. rewrite (B2 E). reflexivity. }
    assert (L' : loaded (mkL d (l_ids s) (l_roots s) (l_calls s)) ls) by exact L.
    assert (P := load_packages_run [("./" ++ b)%string] _ _ L'). destruct (load_packages load _ _) as [s1 ok]. cbn [l_dir l_calls] in P.
    destruct P as (_ & P2 & P3). destruct ok.
    + destruct P3 as (l & L1). specialize (IH (fun x H => Hc x (or_intror H)) s1 _ L1). destruct (second_pass load rs s1) as [s2 ok2].
      destruct IH as (more & M1 & M2). exists ((d, [("./" ++ b)%string]) :: more). split; [rewrite M1, P2, <- app_assoc; reflexivity|].
      destruct ok2; [|exact M2]. destruct M2 as (M2 & M3). split; [exact M2|]. cbn [map]. now rewrite M3, Q.
    + exists [(d, [("./" ++ b)%string])]. split; [exact P2|]. exists (l_calls s), (d, [("./" ++ b)%string]). split; [exact P2|]. split; [exact P3|]. exact (loaded_ok s ls L).
Qed.
End Passes.
