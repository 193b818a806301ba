(** * C47: the packages that are loaded with a package are those its types refer to *)

From Coq Require Import String List Bool Arith Lia Permutation.
Import ListNotations.
From Verif Require Import GoLib MapFacts RefsModel.
Open Scope string_scope.
Open Scope nat_scope.
Open Scope list_scope.

(** ** What is meant *)

(** go/ast: identifiers have no children, a selector has two, the second an identifier. *)
Inductive go_expr : expr -> Prop :=
| go_ident n : go_expr (Node (KIdent n) [])
| go_selector x n : go_expr x -> go_expr (Node KSelector [x; Node (KIdent n) []])
| go_node k cs : (forall n, k <> KIdent n) -> k <> KSelector -> (forall c, In c cs -> go_expr c) -> go_expr (Node k cs).

(** [e] is part of another expression, and that and all that is between them pass the filter. *)
Inductive reached (pass : kind -> Prop) (e : expr) : expr -> Prop :=
| reached_here k cs : pass k -> e = Node k cs -> reached pass e (Node k cs)
| reached_in k cs c : pass k -> In c cs -> reached pass e c -> reached pass e (Node k cs).

(** [x.Name] is in the expression [t]. *)
Definition refers (pass : kind -> Prop) (t : expr) (x : string) : Prop :=
  exists n, reached pass (Node KSelector [Node (KIdent x) []; Node (KIdent n) []]) t.

Section Meaning.
Variable unquote : string -> option string.
Variable pkgs : list (string * package).

(** The package that an import spec is about. *)
Definition imports_pkg (s : spec) (p : package) : Prop := exists path, unquote (s_path s) = Some path /\ In (path, p) pkgs.
(** The name by which its package is known in the file. *)
Definition gives (s : spec) (x : string) (p : package) : Prop :=
  imports_pkg s p /\ match s_name s with None => x = p_name p | Some n => n <> "." /\ x = n end.
Definition dots (s : spec) (p : package) : Prop := imports_pkg s p /\ s_name s = Some ".".
(** What a name stands for: the last spec with it counts. *)
Definition binds (f : source) (x : string) (p : package) : Prop :=
  exists a s b, f_imports f = a ++ s :: b /\ gives s x p /\ forall s' p', In s' b -> ~ gives s' x p'.

(** A type of the file refers to [p]. *)
Definition file_refers (pass : kind -> Prop) (f : source) (p : package) : Prop :=
  (exists s, In s (f_imports f) /\ dots s p) \/
  (exists t x, In t (f_types f) /\ refers pass t x /\ binds f x p).
End Meaning.

(** ** The names in a type *)

Section Names.
Variable filter : kind -> bool.

Fixpoint names_in (e : expr) : list string :=
  match e with
  | Node k cs =>
      if negb (filter k) then []
      else
        let children := (fix children (cs : list expr) : list string := match cs with [] => [] | c :: cs' => names_in c ++ children cs' end) in
        match k with
        | KIdent _ => []
        | KSelector => match cs with Node (KIdent x) _ :: _ => [x] | _ => children cs end
        | _ => children cs
        end
  end.

Lemma expr_ind' (P : expr -> Prop) : (forall k cs, (forall c, In c cs -> P c) -> P (Node k cs)) -> forall e, P e.
Proof.
  intros H. fix IH 1. intros [k cs]. apply H. induction cs as [|c cs IHc]; [intros x []|]. intros x [<-|Hx]; [apply IH|now apply IHc].
Qed.

Definition folds (m : imap) (xs : list string) (st : rstate) : rstate := fold_left (fun st x => external m x st) xs st.

Lemma collect_folds m e : forall st, collect filter m e st = folds m (names_in e) st.
Proof.
  induction e as [k cs IH] using expr_ind'. intros st. cbn [collect names_in]. destruct (filter k); cbn [negb]; [|reflexivity].
  assert (Ch : forall st, (fix children (cs : list expr) (st : rstate) : rstate :=
             match cs with [] => st | c :: cs' => children cs' (collect filter m c st) end) cs st =
           folds m ((fix children (cs : list expr) : list string := match cs with [] => [] | c :: cs' => names_in c ++ children cs' end) cs) st).
  { induction cs as [|c cs IHc]; intros s; [reflexivity|]. rewrite (IH c (or_introl eq_refl)).
    rewrite IHc by (intros; apply IH; now right). unfold folds. now rewrite fold_left_app. }
  destruct k; try apply Ch; [reflexivity|]. destruct cs as [|[[x| | | | |] l] cs]; try apply Ch. reflexivity.
Qed.

Lemma children_in cs x : In x ((fix children (cs : list expr) : list string := match cs with [] => [] | c :: cs' => names_in c ++ children cs' end) cs) <->
  exists c, In c cs /\ In x (names_in c).
Proof.
  induction cs as [|c cs IH]; [split; [intros []|intros (c & [] & _)]|]. split.
  - intros H. apply in_app_or in H. destruct H as [H|H]; [exists c; split; [now left|easy]|]. apply IH in H. destruct H as (d & Hd & H). exists d. split; [now right|easy].
  - intros (d & [<-|Hd] & H); apply in_or_app; [now left|right; apply IH; now exists d].
Qed.

Lemma names_refer e x : go_expr e -> (In x (names_in e) <-> refers (fun k => filter k = true) e x).
Proof.
  induction 1 as [n|y n Hy IH|k cs Hi Hs Hc IH].
  - cbn. destruct (filter (KIdent n)); cbn; (split; [intros []|]); intros (m & H); inversion H; subst; try discriminate; contradiction.
  - cbn [names_in]. destruct (filter KSelector) eqn:F; cbn [negb].
    2:{ split; [intros []|]. intros (m & H). inversion H; subst; congruence. }
    assert (Id : forall m z, ~ reached (fun k => filter k = true) (Node KSelector [Node (KIdent x) []; Node (KIdent m) []]) (Node (KIdent z) [])).
    { intros m z H. inversion H; subst; [discriminate|contradiction]. }
    assert (Out : forall l, y = l -> (exists z w, l = Node (KIdent z) w) -> (In x (match l with Node (KIdent z) _ => [z] | _ => [] end) <->
                  refers (fun k => filter k = true) (Node KSelector [y; Node (KIdent n) []]) x)).
    { intros l <- (z & w & ->). inversion Hy; subst; [|now destruct (H1 z)]. split.
      - intros [<-|[]]. exists n. now apply reached_here.
      - intros (m & H). inversion H as [k cs P E|k cs c P Hin R]; subst.
        + injection E as E _. left. exact (eq_sym E).
        + destruct Hin as [<-|[<-|[]]]; exfalso; now apply Id in R. }
    destruct y as [[z| | | | |] l] eqn:Ey.
    { exact (Out _ eq_refl (ex_intro _ z (ex_intro _ l eq_refl))). }
    all: split;
      [ intros H; apply in_app_or in H; destruct H as [H|H];
          [apply IH in H; destruct H as (m & H); exists m; eapply reached_in; [exact F|now left|exact H]|
           destruct (filter (KIdent n)); cbn in H; destruct H]
      | intros (m & H); inversion H as [k cs P E|k cs c P Hin R]; subst; [discriminate|];
        destruct Hin as [<-|[<-|[]]]; [apply in_or_app; left; apply IH; now exists m|exfalso; now apply Id in R] ].
  - cbn [names_in]. destruct (filter k) eqn:F; cbn [negb].
    2:{ split; [intros []|]. intros (m & H). inversion H; subst; congruence. }
    assert (Q : (exists c, In c cs /\ In x (names_in c)) <-> refers (fun k => filter k = true) (Node k cs) x).
    { split.
      - intros (c & Hin & H). apply (IH c Hin) in H. destruct H as (m & H). exists m. now apply (reached_in _ _ k cs c).
      - intros (m & H). inversion H as [k' cs' P E|k' cs' c P Hin R]; subst; [congruence|]. exists c. split; [easy|]. apply (IH c Hin). now exists m. }
    destruct k; try (rewrite children_in; exact Q); [now destruct (Hi name)|easy].
Qed.
End Names.

(** ** The imports of a file *)

Section Imports.
Variable unquote : string -> option string.
Variable pkgs : list (string * package).
Hypothesis pkgs_nodup : NoDup (map fst pkgs).
(** A package has one ID. *)
Hypothesis one_id : forall k k' p p', In (k, p) pkgs -> In (k', p') pkgs -> p_id p = p_id p' -> p = p'.

Notation imports_pkg := (imports_pkg unquote pkgs).
Notation gives := (gives unquote pkgs).
Notation dots := (dots unquote pkgs).

Lemma imports_one s p p' : imports_pkg s p -> imports_pkg s p' -> p = p'.
Proof.
  intros (path & U & H) (path' & U' & H'). assert (path' = path) as -> by congruence.
  apply (in_mget _ _ _ String.eqb_eq _ _ _ pkgs_nodup) in H, H'. congruence.
Qed.

Lemma map_import_run m s : match map_import unquote pkgs m s with
  | inl m' => exists p, imports_pkg s p /\
      m' = match s_name s with
           | None => mkImap (dot m) (mset String.eqb (by_name m) (p_name p) p)
           | Some n => if String.eqb n "." then mkImap (mset String.eqb (dot m) (p_id p) p) (by_name m)
                       else mkImap (dot m) (mset String.eqb (by_name m) n p)
           end
  | inr e => (forall p, ~ imports_pkg s p) /\ forall x, e <> EUnimported x
  end.
Proof.
  unfold map_import. destruct (unquote (s_path s)) as [path|] eqn:U.
  2:{ split; [|easy]. intros p (q & H & _). congruence. }
  destruct (mget String.eqb pkgs path) as [p|] eqn:G.
  - exists p. split; [|reflexivity]. exists path. split; [easy|]. now apply (mget_in _ _ _ String.eqb_eq).
  - split; [|easy]. intros p (q & H & Hin). assert (q = path) as -> by congruence.
    apply (in_mget _ _ _ String.eqb_eq _ _ _ pkgs_nodup) in Hin. congruence.
Qed.

Definition has (l : list (string * package)) (p : package) : Prop := In (p_id p, p) l.
Definition good (l : list (string * package)) : Prop :=
  NoDup (map fst l) /\ forall k p, In (k, p) l -> k = p_id p /\ exists path, In (path, p) pkgs.

Lemma good_add l p path : good l -> In (path, p) pkgs -> good (mset String.eqb l (p_id p) p) /\
  forall q, has (mset String.eqb l (p_id p) p) q <-> q = p \/ has l q.
Proof.
  intros (N & K) Hp. assert (N' : NoDup (map fst (mset String.eqb l (p_id p) p))) by now apply (mset_nodup _ _ _ String.eqb_eq).
  assert (I : forall k q, In (k, q) (mset String.eqb l (p_id p) p) -> (k = p_id p /\ q = p) \/ In (k, q) l).
  { intros k q H. apply (in_mget _ _ _ String.eqb_eq _ _ _ N') in H. destruct (String.eqb k (p_id p)) eqn:E.
    - apply String.eqb_eq in E. subst k. rewrite (mget_mset_eq _ _ _ String.eqb_eq) in H. left. split; [easy|congruence].
    - apply String.eqb_neq in E. rewrite (mget_mset_ne _ _ _ String.eqb_eq) in H by easy. right. now apply (mget_in _ _ _ String.eqb_eq). }
  split; [split; [exact N'|]|].
  - intros k q H. destruct (I k q H) as [(-> & ->)|H']; [split; [easy|now exists path]|now apply K].
  - intros q. unfold has. split.
    + intros H. destruct (I _ _ H) as [(_ & ->)|H']; [now left|now right].
    + intros [->|H].
      * apply (mget_in _ _ _ String.eqb_eq). apply (mget_mset_eq _ _ _ String.eqb_eq).
      * destruct (String.eqb (p_id q) (p_id p)) eqn:E.
        -- apply String.eqb_eq in E. destruct (K _ _ H) as (_ & path' & Hq). rewrite E. assert (q = p) as -> by (apply (one_id path' path); easy).
           apply (mget_in _ _ _ String.eqb_eq). apply (mget_mset_eq _ _ _ String.eqb_eq).
        -- apply String.eqb_neq in E. apply (mget_in _ _ _ String.eqb_eq). rewrite (mget_mset_ne _ _ _ String.eqb_eq) by easy.
           now apply (in_mget _ _ _ String.eqb_eq).
Qed.

Lemma map_imports_run specs : forall m, good (dot m) ->
  match map_imports unquote pkgs specs m with
  | inl m' => (forall s, In s specs -> exists p, imports_pkg s p) /\ good (dot m') /\
      (forall p, has (dot m') p <-> (exists s, In s specs /\ dots s p) \/ has (dot m) p) /\
      (forall x p, mget String.eqb (by_name m') x = Some p <->
         (exists a s b, specs = a ++ s :: b /\ gives s x p /\ forall s' p', In s' b -> ~ gives s' x p') \/
         (mget String.eqb (by_name m) x = Some p /\ forall s' p', In s' specs -> ~ gives s' x p'))
  | inr e => (exists s, In s specs /\ forall p, ~ imports_pkg s p) /\ forall x, e <> EUnimported x
  end.
Proof.
  induction specs as [|s specs IH]; intros m Gm; cbn [map_imports].
  - split; [easy|]. split; [exact Gm|]. split.
    + intros p. split; [now right|]. intros [(s & [] & _)|H]; exact H.
    + intros x p. split; [intros H; right; split; [easy|intros ? ? []]|]. intros [(a & s & b & E & _)|(H & _)]; [|exact H]. now destruct a.
  - assert (R := map_import_run m s). destruct (map_import unquote pkgs m s) as [m1|e].
    2:{ destruct R as (R & E). split; [|exact E]. exists s. split; [now left|exact R]. }
    destruct R as (p0 & Hp0 & E).
    assert (G1 : good (dot m1)).
    { destruct Hp0 as (path & _ & Hin). subst m1. destruct (s_name s) as [n|]; [|exact Gm]. destruct (String.eqb n "."); [|exact Gm]. cbn [dot]. now apply (good_add _ _ path). }
    specialize (IH m1 G1). destruct (map_imports unquote pkgs specs m1) as [m'|e].
    2:{ destruct IH as ((s' & Hs & H) & E'). split; [|exact E']. exists s'. split; [now right|exact H]. }
    destruct IH as (I1 & I2 & I3 & I4). split; [intros s' [<-|Hs]; [now exists p0|now apply I1]|]. split; [exact I2|]. split.
    + intros p. rewrite I3.
      assert (Q : has (dot m1) p <-> dots s p \/ has (dot m) p).
      { assert (Dn : dots s p -> s_name s = Some "." /\ p = p0) by (intros (D1 & D2); split; [easy|now apply (imports_one s)]).
        subst m1. destruct (s_name s) as [n|] eqn:Es.
        - destruct (String.eqb n ".") eqn:En; cbn [dot].
          + apply String.eqb_eq in En. subst n. destruct Hp0 as (path & U & Hin). destruct (good_add (dot m) p0 path Gm Hin) as (_ & ->). split; (intros [H|H]; [|now right]).
            * subst p. left. split; [now exists path|easy].
            * left. now apply Dn.
          + apply String.eqb_neq in En. split; [now right|]. intros [H|H]; [|exact H]. destruct (Dn H). congruence.
        - cbn [dot]. split; [now right|]. intros [H|H]; [|exact H]. destruct (Dn H). congruence. }
      rewrite Q. split.
      * intros [(s' & Hs & D)|[D|H]]; [left; exists s'; split; [now right|easy]|left; exists s; split; [now left|easy]|now right].
      * intros [(s' & [<-|Hs] & D)|H]; [right; now left|left; now exists s'|right; now right].
    + intros x p. rewrite I4.
      assert (Gs : forall q, gives s x q -> q = p0) by (intros q (H & _); now apply (imports_one s)).
      assert (Q : mget String.eqb (by_name m1) x = Some p <-> gives s x p \/ (mget String.eqb (by_name m) x = Some p /\ forall q, ~ gives s x q)).
      { assert (Set_ : forall n, (forall q, gives s x q <-> q = p0 /\ x = n) -> (mget String.eqb (mset String.eqb (by_name m) n p0) x = Some p <->
               gives s x p \/ (mget String.eqb (by_name m) x = Some p /\ forall q, ~ gives s x q))).
        { intros n Hn. destruct (String.eqb x n) eqn:En.
          - apply String.eqb_eq in En. subst n. rewrite (mget_mset_eq _ _ _ String.eqb_eq). split.
            + intros [= <-]. left. now apply Hn.
            + intros [H|(_ & H)]; [f_equal; symmetry; now apply Gs|]. exfalso. apply (H p0). now apply Hn.
          - apply String.eqb_neq in En. rewrite (mget_mset_ne _ _ _ String.eqb_eq) by easy. split.
            + intros H. right. split; [easy|]. intros q Hq. apply Hn in Hq. now destruct Hq.
            + intros [H|(H & _)]; [|exact H]. apply Hn in H. now destruct H. }
        subst m1. unfold RefsProps.gives in *. destruct (s_name s) as [n|] eqn:Es.
        - destruct (String.eqb n ".") eqn:En; cbn [by_name].
          + apply String.eqb_eq in En. subst n. split; [|intros [(_ & H & _)|(H & _)]; [now destruct H|exact H]]. intros H. right. split; [easy|]. intros q (_ & Hq & _). now apply Hq.
          + apply String.eqb_neq in En. apply Set_. intros q. split.
            * intros H. split; [now apply Gs|]. now destruct H as (_ & _ & H).
            * intros (-> & ->). split; [exact Hp0|now split].
        - cbn [by_name]. apply Set_. intros q. split.
          + intros H. assert (q = p0) as -> by now apply Gs. split; [easy|]. now destruct H.
          + intros (-> & ->). now split. }
      rewrite Q. split.
      * intros [(a & s' & b & -> & H)|([H|(H & H0)] & Hn)].
        -- left. exists (s :: a), s', b. now split.
        -- left. exists [], s, specs. now split.
        -- right. split; [easy|]. intros s' p' [<-|Hs]; [apply H0|now apply Hn].
      * intros [(a & s' & b & Ea & H & Hn)|(H & Hn)].
        -- destruct a as [|a0 a]; cbn in Ea; injection Ea as <- ->; [right|left; now exists a, s', b]. split; [now left|exact Hn].
        -- right. split; [right; split; [easy|]|]. { intros q. apply Hn. now left. } intros s' p' Hs. apply Hn. now right.
Qed.

(** ** The references of a file *)

Lemma folds_run m xs : (forall x p, mget String.eqb (by_name m) x = Some p -> exists path, In (path, p) pkgs) -> forall st, good (refs st) ->
  good (refs (folds m xs st)) /\
  (forall p, has (refs (folds m xs st)) p <-> (exists x, In x xs /\ mget String.eqb (by_name m) x = Some p) \/ has (refs st) p) /\
  (forall e, In e (rerrs (folds m xs st)) <-> (exists x, e = EUnimported x /\ In x xs /\ mget String.eqb (by_name m) x = None) \/ In e (rerrs st)).
Proof.
  intros K. induction xs as [|x xs IH]; intros st Gs; cbn [folds fold_left].
  - split; [exact Gs|]. split.
    + intros p. split; [now right|]. intros [(y & [] & _)|H]; exact H.
    + intros e. split; [now right|]. intros [(y & _ & [] & _)|H]; exact H.
  - assert (Q : good (refs (external m x st)) /\
      (forall p, has (refs (external m x st)) p <-> mget String.eqb (by_name m) x = Some p \/ has (refs st) p) /\
      (forall e, In e (rerrs (external m x st)) <-> (e = EUnimported x /\ mget String.eqb (by_name m) x = None) \/ In e (rerrs st))).
    { unfold external. destruct (mget String.eqb (by_name m) x) as [p0|] eqn:E; cbn [refs rerrs].
      - destruct (K x p0 E) as (path & Hp). destruct (good_add _ _ _ Gs Hp) as (G1 & G2). split; [exact G1|]. split.
        + intros p. rewrite G2. split; (intros [H|H]; [left; congruence|now right]).
        + intros e. split; [now right|]. intros [(_ & H)|H]; [discriminate|exact H].
      - split; [exact Gs|]. split.
        + intros p. split; [now right|]. intros [H|H]; [discriminate|exact H].
        + intros e. rewrite in_app_iff. split.
          * intros [H|[<-|[]]]; [now right|now left].
          * intros [(-> & _)|H]; [right; now left|now left]. }
    destruct Q as (Q1 & Q2 & Q3). destruct (IH _ Q1) as (I1 & I2 & I3). fold (folds m xs (external m x st)). split; [exact I1|]. split.
    + intros p. rewrite I2, Q2. split.
      * intros [(y & Hy & H)|[H|H]]; [left; exists y; split; [now right|easy]|left; exists x; split; [now left|easy]|now right].
      * intros [(y & [<-|Hy] & H)|H]; [right; now left|left; now exists y|right; now right].
    + intros e. rewrite I3, Q3. split.
      * intros [(y & E & Hy & H)|[(E & H)|H]]; [left; exists y; split; [easy|]; split; [now right|easy]|left; exists x; split; [easy|]; split; [now left|easy]|now right].
      * intros [(y & E & [<-|Hy] & H)|H]; [right; now left|left; now exists y|right; now right].
Qed.

Lemma file_folds filter m types : forall st, fold_left (fun st t => collect filter m t st) types st = folds m (flat_map (names_in filter) types) st.
Proof.
  induction types as [|t types IH]; intros st; [reflexivity|]. cbn [fold_left flat_map]. rewrite IH, collect_folds. unfold folds. now rewrite fold_left_app.
Qed.

Lemma add_all_run ps : forall acc, (forall k p, In (k, p) ps -> exists path, In (path, p) pkgs) -> good acc ->
  good (add_all ps acc) /\ forall q, has (add_all ps acc) q <-> (exists k, In (k, q) ps) \/ has acc q.
Proof.
  induction ps as [|[k p] ps IH]; intros acc Hk Ga; cbn [add_all fold_left].
  - split; [exact Ga|]. intros q. split; [now right|]. intros [(k & [])|H]; exact H.
  - destruct (Hk k p (or_introl eq_refl)) as (path & Hp). destruct (good_add acc p path Ga Hp) as (G1 & G2). cbn [snd].
    destruct (IH _ (fun k p H => Hk k p (or_intror H)) G1) as (I1 & I2). split; [exact I1|]. intros q. unfold add_all in I2. rewrite I2, G2. split.
    + intros [(j & H)|[->|H]]; [left; exists j; now right|left; exists k; now left|now right].
    + intros [(j & [[= -> ->]|H])|H]; [right; now left|left; now exists j|right; now right].
Qed.
End Imports.

(** ** The claims *)

Section Claims.
Variable unquote : string -> option string.
Variable pkgs : list (string * package).
Variable filter : kind -> bool.
Variable order : list (imap * rstate) -> list (imap * rstate).
Variable sets : list (string * package) -> list (string * package).
Variable files : list source.
Hypothesis pkgs_nodup : NoDup (map fst pkgs).
Hypothesis one_id : forall k k' p p', In (k, p) pkgs -> In (k', p') pkgs -> p_id p = p_id p' -> p = p'.
Hypothesis order_perm : forall l, Permutation (order l) l.
Hypothesis sets_perm : forall l, Permutation (sets l) l.
Hypothesis go_types : forall f t, In f files -> In t (f_types f) -> go_expr t.
Let passes (k : kind) : Prop := filter k = true.

(** What is known of the imports of a file. *)
Definition ims (f : source) (m : imap) : Prop :=
  good pkgs (dot m) /\ (forall p, has (dot m) p <-> exists s, In s (f_imports f) /\ dots unquote pkgs s p) /\
  (forall x p, mget String.eqb (by_name m) x = Some p <-> binds unquote pkgs f x p).

Lemma all_imports_run fs : match all_imports unquote pkgs fs with
  | inl ms => (forall f s, In f fs -> In s (f_imports f) -> exists p, imports_pkg unquote pkgs s p) /\ Forall2 ims fs ms
  | inr e => (exists f s, In f fs /\ In s (f_imports f) /\ forall p, ~ imports_pkg unquote pkgs s p) /\ forall x, e <> EUnimported x
  end.
Proof.
  induction fs as [|f fs IH]; cbn [all_imports]; [split; [intros ? ? []|constructor]|].
  assert (R := map_imports_run unquote pkgs pkgs_nodup one_id (f_imports f) (mkImap [] [])).
  specialize (R ltac:(split; [constructor|intros ? ? []])). destruct (map_imports unquote pkgs (f_imports f) _) as [m|e].
  2:{ destruct R as ((s & Hs & R) & E). split; [|exact E]. exists f, s. split; [now left|now split]. }
  destruct R as (R1 & R2 & R3 & R4). destruct (all_imports unquote pkgs fs) as [ms|e].
  2:{ destruct IH as ((g & s & Hg & Hs) & E). split; [|exact E]. exists g, s. split; [now right|easy]. }
  destruct IH as (I1 & I2). split; [intros g s [<-|Hg] Hs; [now apply R1|now apply (I1 g s)]|]. constructor; [|exact I2].
  split; [exact R2|]. split.
  - intros p. rewrite R3. cbn. split; [intros [H|[]]; exact H|now left].
  - intros x p. rewrite R4. cbn. split; [intros [H|(H & _)]; [exact H|discriminate]|now left].
Qed.

Lemma binds_known f x p : binds unquote pkgs f x p -> exists path, In (path, p) pkgs.
Proof. intros (a & s & b & _ & ((path & _ & H) & _) & _). now exists path. Qed.

(** What is known of the references of a file. *)
Definition rfs (f : source) (mr : imap * rstate) : Prop :=
  ims f (fst mr) /\ good pkgs (refs (snd mr)) /\
  forall p, has (refs (snd mr)) p <-> exists t x, In t (f_types f) /\ refers passes t x /\ binds unquote pkgs f x p.

Lemma collect_all_run fs ms : Forall2 ims fs ms -> (forall f t, In f fs -> In t (f_types f) -> go_expr t) -> forall es,
  let '(r, es') := collect_all filter (combine fs ms) es in
  Forall2 rfs fs r /\
  forall e, In e es' <-> (exists f t x, e = EUnimported x /\ In f fs /\ In t (f_types f) /\ refers passes t x /\ forall p, ~ binds unquote pkgs f x p) \/ In e es.
Proof.
  induction 1 as [|f m fs ms Hf F IH]; intros Hgo es; cbn [combine collect_all].
  - split; [constructor|]. intros e. split; [now right|]. intros [(f & t & x & _ & [] & _)|H]; exact H.
  - unfold collect_file. rewrite file_folds. destruct Hf as (D1 & D2 & D3).
    destruct (folds_run pkgs one_id m (flat_map (names_in filter) (f_types f))) with (st := mkR [] es) as (F1 & F2 & F3).
    { intros x p H. apply D3 in H. now apply binds_known in H. }
    { split; [constructor|intros ? ? []]. }
    set (st := folds m _ (mkR [] es)) in *. specialize (IH (fun g t Hg => Hgo g t (or_intror Hg)) (rerrs st)).
    destruct (collect_all filter (combine fs ms) (rerrs st)) as [r es']. destruct IH as (I1 & I2).
    assert (Nm : forall x, In x (flat_map (names_in filter) (f_types f)) <-> exists t, In t (f_types f) /\ refers passes t x).
    { intros x. rewrite in_flat_map. split; intros (t & Ht & H); exists t; (split; [easy|]); apply (names_refer filter); try easy; apply (Hgo f); try easy; now left. }
    split.
    + constructor; [|exact I1]. split; [now split|]. split; [exact F1|]. intros p. cbn [snd]. rewrite F2. split.
      * intros [(x & Hx & H)|[]]. apply Nm in Hx. destruct Hx as (t & Ht & Hx). exists t, x. split; [easy|]. split; [easy|]. now apply D3.
      * intros (t & x & Ht & Hx & H). left. exists x. split; [apply Nm; now exists t|now apply D3].
    + intros e. rewrite I2, F3. split.
      * intros [(g & t & x & E & Hg & H)|[(x & E & Hx & H)|H]]; [left; exists g, t, x; split; [easy|]; split; [now right|easy]| |now right].
        left. apply Nm in Hx. destruct Hx as (t & Ht & Hx). exists f, t, x. split; [easy|]. split; [now left|]. split; [easy|]. split; [easy|].
        intros p Hp. apply D3 in Hp. congruence.
      * intros [(g & t & x & E & [<-|Hg] & Ht & Hx & H)|H]; [|left; now exists g, t, x|right; now right].
        right. left. exists x. split; [easy|]. split; [apply Nm; now exists t|].
        destruct (mget String.eqb (by_name m) x) as [p|] eqn:G; [|reflexivity]. apply D3 in G. now destruct (H p).
Qed.

Lemma sum_run fs r : Forall2 rfs fs r -> forall l acc, (forall mr, In mr l -> In mr r) -> good pkgs acc ->
  good pkgs (fold_left (fun a mr => add_all (refs (snd mr)) (add_all (dot (fst mr)) a)) l acc) /\
  forall p, has (fold_left (fun a mr => add_all (refs (snd mr)) (add_all (dot (fst mr)) a)) l acc) p <->
    (exists mr, In mr l /\ (has (dot (fst mr)) p \/ has (refs (snd mr)) p)) \/ has acc p.
Proof.
  intros F. assert (Gr : forall mr, In mr r -> good pkgs (dot (fst mr)) /\ good pkgs (refs (snd mr))).
  { intros mr H. induction F as [|f x fs r (I & G & _) F IH]; [destruct H|]. destruct H as [<-|H]; [split; [apply I|exact G]|now apply IH]. }
  assert (Hs : forall (a : list (string * package)) q, good pkgs a -> ((exists k, In (k, q) a) <-> has a q)).
  { intros a q (_ & Gk). split; [intros (k & H); destruct (Gk k q H) as (-> & _); exact H|intros H; now exists (p_id q)]. }
  induction l as [|mr l IH]; intros acc Hl Ga; cbn [fold_left].
  - split; [exact Ga|]. intros p. split; [now right|]. intros [(mr & [] & _)|H]; exact H.
  - destruct (Gr mr (Hl mr (or_introl eq_refl))) as (G1 & G2).
    destruct (add_all_run pkgs one_id (dot (fst mr)) acc) as (A1 & A2); [intros k p H; now apply (proj2 G1 k p)|exact Ga|].
    destruct (add_all_run pkgs one_id (refs (snd mr)) (add_all (dot (fst mr)) acc)) as (B1 & B2); [intros k p H; now apply (proj2 G2 k p)|exact A1|].
    destruct (IH _ (fun x H => Hl x (or_intror H)) B1) as (I1 & I2). split; [exact I1|]. intros p. rewrite I2, B2, A2, (Hs _ p G1), (Hs _ p G2). split.
    + intros [(x & Hx & H)|[H|[H|H]]]; [left; exists x; split; [now right|easy]|left; exists mr; split; [now left|now right]|left; exists mr; split; [now left|now left]|now right].
    + intros [(x & [<-|Hx] & [H|H])|H]; [right; right; now left|right; now left|left; exists x; split; [easy|now left]|left; exists x; split; [easy|now right]|right; right; now right].
Qed.

(** If all imports of the package are there, the packages returned are those dot-imported by a file, or named as x in some x.Name of
    a type of a file in which x stands for them, as far as the filter lets one see. Each is there once. *)
Theorem refs_exact ps es :
  all_referenced unquote order sets filter pkgs files = (ps, es) ->
  (forall f s, In f files -> In s (f_imports f) -> exists p, imports_pkg unquote pkgs s p) ->
  NoDup ps /\ forall p, In p ps <-> exists f, In f files /\ file_refers unquote pkgs passes f p.
Proof.
  unfold all_referenced. intros H Hall. assert (R := all_imports_run files). destruct (all_imports unquote pkgs files) as [ms|e].
  2:{ destruct R as ((f & s & Hf & Hs & R) & _). destruct (Hall f s Hf Hs) as (p & Hp). now destruct (R p). }
  destruct R as (_ & R). assert (C := collect_all_run files ms R go_types []). destruct (collect_all filter (combine files ms) []) as [r es'].
  destruct C as (C & _). injection H as <- _.
  destruct (sum_run files r C (order r) []) as (S1 & S2); [intros mr Hm; now apply (Permutation_in _ (order_perm r))|split; [constructor|intros ? ? []]|].
  set (all := fold_left _ (order r) []) in *. split.
  - apply (Permutation_NoDup (Permutation_map _ (Permutation_sym (sets_perm all)))). destruct S1 as (N & K). clear - N K.
    induction all as [|[k p] l IH]; [constructor|]. cbn in *. apply NoDup_cons_iff in N. destruct N as [Nk N]. constructor; [|apply IH; [exact N|intros j q Hq; apply K; now right]].
    intros X. apply in_map_iff in X. destruct X as ([j q] & E & X). cbn in E. subst q. destruct (K k p (or_introl eq_refl)) as (-> & _).
    destruct (K j p (or_intror X)) as (-> & _). apply Nk. apply in_map_iff. now exists (p_id p, p).
  - intros p.
    assert (In p (map snd (sets all)) <-> has all p) as ->.
    { rewrite in_map_iff. split.
      - intros ([k q] & E & H). cbn in E. subst q. apply (Permutation_in _ (sets_perm all)) in H. destruct (proj2 S1 k p H) as (-> & _). exact H.
      - intros H. exists (p_id p, p). split; [easy|]. now apply (Permutation_in _ (Permutation_sym (sets_perm all))). }
    rewrite S2. split.
    + intros [(mr & Hm & H)|[]]. apply (Permutation_in _ (order_perm r)) in Hm. clear - C Hm H.
      induction C as [|f x fs r (I & _ & Hr) C IH]; [destruct Hm|]. destruct Hm as [->|Hm].
      * exists f. split; [now left|]. destruct H as [H|H]; [left; now apply I|right; now apply Hr].
      * destruct (IH Hm) as (g & Hg & Q). exists g. split; [now right|exact Q].
    + intros (f & Hf & H). left. assert (exists mr, In mr r /\ (has (dot (fst mr)) p \/ has (refs (snd mr)) p)) as (mr & Hm & Q).
      { clear - C Hf H. induction C as [|g x fs r (I & _ & Hr) C IH]; [destruct Hf|]. destruct Hf as [->|Hf].
        - exists x. split; [now left|]. destruct H as [H|H]; [left; now apply I|right; now apply Hr].
        - destruct (IH Hf) as (mr & Hm & Q). exists mr. split; [now right|exact Q]. }
      exists mr. split; [now apply (Permutation_in _ (Permutation_sym (order_perm r)))|exact Q].
Qed.

(** The use of a name that no import gives is reported, and nothing else is. *)
Theorem unimported_reported ps es :
  all_referenced unquote order sets filter pkgs files = (ps, es) ->
  (forall f s, In f files -> In s (f_imports f) -> exists p, imports_pkg unquote pkgs s p) ->
  forall e, In e es <-> exists f t x, e = EUnimported x /\ In f files /\ In t (f_types f) /\ refers passes t x /\ forall p, ~ binds unquote pkgs f x p.
Proof.
  unfold all_referenced. intros H Hall. assert (R := all_imports_run files). destruct (all_imports unquote pkgs files) as [ms|e].
  2:{ destruct R as ((f & s & Hf & Hs & R) & _). destruct (Hall f s Hf Hs) as (p & Hp). now destruct (R p). }
  destruct R as (_ & R). assert (C := collect_all_run files ms R go_types []). destruct (collect_all filter (combine files ms) []) as [r es'].
  destruct C as (_ & C). injection H as _ <-. intros e. rewrite C. split; [intros [H|[]]; exact H|now left].
Qed.

(** If an import of some file is not there, no package is returned, and there is one error. *)
Theorem missing_import f s : In f files -> In s (f_imports f) -> (forall p, ~ imports_pkg unquote pkgs s p) ->
  exists e, all_referenced unquote order sets filter pkgs files = ([], [e]) /\ forall x, e <> EUnimported x.
Proof.
  intros Hf Hs Hn. unfold all_referenced. assert (R := all_imports_run files). destruct (all_imports unquote pkgs files) as [ms|e].
  - destruct R as (R & _). destruct (R f s Hf Hs) as (p & Hp). now destruct (Hn p).
  - exists e. split; [reflexivity|apply R].
Qed.
End Claims.
Print Assumptions refs_exact.
Print Assumptions unimported_reported.
Print Assumptions missing_import.

(** ** Filters *)

Lemma reached_mono (P Q : kind -> Prop) e t : (forall k, P k -> Q k) -> reached P e t -> reached Q e t.
Proof. intros H R. induction R as [k cs Hk E|k cs c Hk Hc R IH]; [apply reached_here; auto|apply (reached_in _ _ k cs c); auto]. Qed.

(** What a generator wants to see, it sees, whichever others it runs with. *)
Theorem generators_keep_refs gens f t x : In (Some f) gens ->
  refers (fun k => f k = true) t x -> refers (fun k => interesting (check_filters gens) k = true) t x.
Proof.
  intros Hf (n & R). exists n. apply (reached_mono (fun k => f k = true)); [|exact R]. intros k Hk.
  assert (Hc : In f (check_filters gens)) by (apply in_flat_map; exists (Some f); split; [easy|now left]).
  unfold interesting. destruct (check_filters gens) as [|g gs]; [reflexivity|]. apply existsb_exists. now exists f.
Qed.
Print Assumptions generators_keep_refs.

(** A node is looked at if no generator has a filter, or some filter lets it pass. *)
Theorem nodes_seen gens k : interesting (check_filters gens) k = true <->
  (forall g, In g gens -> g = None) \/ exists f, In (Some f) gens /\ f k = true.
Proof.
  assert (Hc : forall f, In f (check_filters gens) <-> In (Some f) gens).
  { intros f. unfold check_filters. rewrite in_flat_map. split.
    - intros ([g|] & Hg & H); [destruct H as [<-|[]]; exact Hg|destruct H].
    - intros H. exists (Some f). split; [exact H|now left]. }
  unfold interesting. destruct (check_filters gens) as [|g gs].
  - split; [|easy]. intros _. left. intros [f|] H; [|reflexivity]. now apply Hc in H.
  - rewrite existsb_exists. split.
    + intros (f & Hf & E). right. exists f. split; [now apply Hc|exact E].
    + intros [N|(f & Hf & E)]; [|exists f; split; [now apply Hc|exact E]].
      assert (X := N (Some g) (proj1 (Hc g) (or_introl eq_refl))). discriminate.
Qed.
Print Assumptions nodes_seen.

(** A reference that is seen for CRDs is not in an interface nor in a field without json tag; one that is not in those is seen. *)
Theorem crd_sees t x :
  refers (fun k => crd_filter k = true) t x <-> refers (fun k => k <> KInterface /\ k <> KField false) t x.
Proof.
  split; intros (n & R); exists n; (eapply reached_mono; [|exact R]); intros k; destruct k as [| | | |[|]|]; cbn; try easy; now intros (H & H').
Qed.
Print Assumptions crd_sees.
Theorem object_sees t x :
  refers (fun k => object_filter k = true) t x <-> refers (fun k => k <> KInterface) t x.
Proof.
  split; intros (n & R); exists n; (eapply reached_mono; [|exact R]); intros k; destruct k as [| | | |[|]|]; cbn; easy.
Qed.
Print Assumptions object_sees.

(** ** Cases *)

(** type T struct { M metav1.ObjectMeta `json:"m"`; C core.Pod; A map[string][]resource.Quantity `json:"a"`; I interface { F(x.Y) } `json:"i"` }
    in a file with the imports given and one with a dot-import. *)
Definition sel (x n : string) : expr := Node KSelector [Node (KIdent x) []; Node (KIdent n) []].
Definition ex_type : expr :=
  Node KStruct [Node KNode [Node (KField true) [Node (KIdent "M") []; sel "metav1" "ObjectMeta"];
                            Node (KField false) [Node (KIdent "C") []; sel "core" "Pod"];
                            Node (KField true) [Node (KIdent "A") []; Node KNode [Node (KIdent "string") []; Node KNode [sel "resource" "Quantity"]]];
                            Node (KField true) [Node (KIdent "I") []; Node KInterface [Node KNode [Node (KField false) [sel "x" "Y"]]]]]].
Definition ex_meta := mkPackage "k8s.io/meta/v1" "v1".
Definition ex_core := mkPackage "k8s.io/core" "core".
Definition ex_res := mkPackage "k8s.io/resource" "resource".
Definition ex_dot := mkPackage "example.com/dot" "dot".
Definition ex_pkgs := [("k8s.io/meta/v1", ex_meta); ("k8s.io/core", ex_core); ("k8s.io/resource", ex_res); ("example.com/dot", ex_dot)].
Definition ex_files := [mkSource [mkSpec (Some "metav1") "k8s.io/meta/v1"; mkSpec None "k8s.io/core"; mkSpec None "k8s.io/resource"] [ex_type];
                        mkSource [mkSpec (Some ".") "example.com/dot"] []].
Example ex_crd : all_referenced Some (fun l => l) (@rev _) crd_filter ex_pkgs ex_files = ([ex_dot; ex_res; ex_meta], []).
Proof. reflexivity. Qed.
Example ex_object : all_referenced Some (fun l => l) (@rev _) object_filter ex_pkgs ex_files = ([ex_dot; ex_res; ex_core; ex_meta], []).
Proof. reflexivity. Qed.
Example ex_all : all_referenced Some (fun l => l) (@rev _) (interesting []) ex_pkgs ex_files = ([ex_dot; ex_res; ex_core; ex_meta], [EUnimported "x"]).
Proof. reflexivity. Qed.
Example ex_hypotheses : NoDup (map fst ex_pkgs) /\
  (forall k k' p p', In (k, p) ex_pkgs -> In (k', p') ex_pkgs -> p_id p = p_id p' -> p = p') /\
  (forall f t, In f ex_files -> In t (f_types f) -> go_expr t) /\
  (forall f s, In f ex_files -> In s (f_imports f) -> exists p, imports_pkg Some ex_pkgs s p).
Proof.
  split; [repeat constructor; cbn; intuition discriminate|]. split; [|split].
  - intros k k' p p' H H'. cbn in H, H'. repeat (destruct H as [H|H]; [injection H as <- <-|]); try destruct H;
      repeat (destruct H' as [H'|H']; [injection H' as <- <-|]); try destruct H'; try reflexivity; discriminate.
  - assert (Hs : forall x n, go_expr (sel x n)) by (intros; constructor; constructor).
    intros f t [<-|[<-|[]]] Ht; [|destruct Ht]. destruct Ht as [<-|[]].
    repeat (first [apply Hs | apply go_ident | apply go_node; [discriminate|discriminate|let c := fresh in let H := fresh in intros c H; cbn in H;
      repeat (destruct H as [<-|H]; [|try (now destruct H)])]]).
  - intros f s [<-|[<-|[]]] Hs; cbn in Hs; repeat (destruct Hs as [<-|Hs]; [|try (now destruct Hs)]); eexists; eexists; (split; [reflexivity|]); cbn; auto.
Qed.

(** One import that is not there, such as the "C" of cgo, hides all references. *)
Example ex_cgo : all_referenced Some (fun l => l) (@rev _) crd_filter ex_pkgs (mkSource [mkSpec None "C"] [] :: ex_files) = ([], [ENoPackage "C"]).
Proof. reflexivity. Qed.
(** type T [len(v.F)]int, v being a variable, gives an error. *)
Example ex_variable : all_referenced Some (fun l => l) (@rev _) crd_filter ex_pkgs
  [mkSource [] [Node KNode [Node KNode [Node (KIdent "len") []; sel "v" "F"]; Node (KIdent "int") []]]] = ([], [EUnimported "v"]).
Proof. reflexivity. Qed.
