(** * Proofs about the printed help: tables, the summary, the details. *)

From Coq Require Import List String Ascii Bool Arith Lia.
From Verif Require Import HelpModel PrettyModel PrettySpec PrettyProofs.
Import ListNotations.
Open Scope list_scope.

Definition show (on : bool) (s : span) (t : list ascii) : Prop := exists o, write on s = Some o /\ visible o = t.
Definition shows (on : bool) (l : list span) (t : list ascii) : Prop := exists o, all_of (map (write on) l) = Some o /\ visible o = t.

Lemma shows_nil : forall on, shows on [] [].
Proof. intros; exists []; split; reflexivity. Qed.
Lemma shows_cons : forall on s l t u, show on s t -> shows on l u -> shows on (s :: l) (t ++ u).
Proof.
  intros on s l t u [o [H1 H2]] [o' [H3 H4]]. exists (o ++ o'). simpl. rewrite H1; simpl; rewrite H3. split; [reflexivity|].
  rewrite visible_app, H2, H4; reflexivity.
Qed.
Lemma shows_app : forall on a b t u, shows on a t -> shows on b u -> shows on (a ++ b) (t ++ u).
Proof.
  intros on a; induction a as [|s a IH]; intros b t u [o [H1 H2]] Hb; simpl in *.
  - injection H1 as <-; simpl in H2; subst t; exact Hb.
  - destruct (write on s) as [x|] eqn:E; [|discriminate]. destruct (all_of (map (write on) a)) as [y|] eqn:F; [|discriminate].
    injection H1 as <-. rewrite visible_app in H2; subst t. rewrite <- app_assoc. apply shows_cons; [exists x; split; [exact E|reflexivity]|].
    apply IH; [|exact Hb]. exists y; split; [exact F|reflexivity].
Qed.
Lemma shows_flat : forall (D : Type) on (f : D -> list span) (g : D -> list ascii) l,
  (forall d, In d l -> shows on (f d) (g d)) -> shows on (flat_map f l) (flat_map g l).
Proof.
  induction l as [|d l IH]; intros H; simpl; [apply shows_nil|].
  apply shows_app; [apply H; left; reflexivity|]. apply IH; intros; apply H; right; assumption.
Qed.
Lemma shows_one : forall on s t, show on s t -> shows on [s] t.
Proof. intros on s t H. rewrite <- (app_nil_r t). apply shows_cons; [exact H|apply shows_nil]. Qed.
Lemma show_many : forall on l t, shows on l t -> show on (Many l) t.
Proof. intros on l t H; exact H. Qed.
Lemma show_reads : forall on s t, reads s t -> show on s t.
Proof. intros; apply reads_write; assumption. Qed.
Lemma show_line : forall on s t, show on s t -> show on (line s) (nl :: t).
Proof. intros on s t [o [H1 H2]]. unfold show, line; simpl. rewrite H1. eexists; split; [reflexivity|]. simpl. rewrite H2; reflexivity. Qed.
Lemma show_newlines : forall on n, show on (newlines n) (repeat nl n).
Proof. intros; unfold show, newlines; simpl. eexists; split; [reflexivity|]. rewrite lines_padding_is; apply visible_repeat. Qed.
Lemma show_ind : forall on n s o, write on s = Some o -> ok true o -> show on (Ind n s) (indented n true (visible o)).
Proof.
  intros on n s o H Hok. unfold show; simpl; rewrite H. eexists; split; [reflexivity|]. rewrite indent_is. apply ok_indent; exact Hok.
Qed.
(** A block: a line of its own. *)
Lemma show_block : forall on n s o t, write on s = Some o -> ok true o -> visible o = t -> show on (Ind n (line s)) (block n t).
Proof.
  intros on n s o t H Hok <-. unfold block. change (nl :: indented n true (visible o)) with (indented n true (visible (Chr nl :: o))).
  apply show_ind; [|exact Hok]. unfold line; simpl; rewrite H; reflexivity.
Qed.
Lemma show_block_text : forall on n t, show on (Ind n (line (Text t))) (block n (chars t)).
Proof. intros. apply (show_block on n (Text t) (bytes_of t)); [reflexivity|apply ok_plain|apply visible_bytes]. Qed.

(** ** Tables *)

Definition cell_out (on : bool) (c : span) : out * nat := (match write on c with Some o => o | None => [] end, width c).
Lemma cell_out_ok : forall on s t, reads s t -> cell on s t (cell_out on s).
Proof.
  intros on s t H. destruct (reads_write on s t H) as [o [H1 H2]]. pose proof (reads_width s t H) as Hw.
  unfold cell, cell_out; cbn [fst snd]. rewrite H1. repeat split; assumption.
Qed.
Lemma table_out : forall on p m cells texts, Forall2 (Forall2 reads) cells texts ->
  write on (Tab p m (map (fun c => (true, c)) cells)) =
    Some (flat_map (row_items (col_width p m texts) 0) (map (map (cell_out on)) cells)).
Proof.
  intros on p m cells texts H. apply table_written.
  - induction H as [|c t cells texts Hc H IH]; simpl; [constructor|]. constructor; [|exact IH]. simpl. clear - Hc.
    induction Hc as [|s t c ts Hs Hc [IH1 IH2]]; simpl; [split; [constructor|reflexivity]|].
    split; [constructor; [apply cell_out_ok; exact Hs|exact IH1]|congruence].
  - rewrite map_length. induction H; simpl; congruence.
Qed.
Lemma row_seen : forall on c ts w k, Forall2 reads c ts -> visible (row_items w k (map (cell_out on) c)) = row_text w k ts.
Proof.
  intros on c ts w k H. apply row_visible. induction H as [|s t c ts Hs Hc IH]; simpl; constructor; [|exact IH].
  destruct (cell_out_ok on s t Hs) as [_ [_ [H1 H2]]]; split; assumption.
Qed.
Lemma table_seen : forall on w cells texts, Forall2 (Forall2 reads) cells texts ->
  visible (flat_map (row_items w 0) (map (map (cell_out on)) cells)) = flat_map (row_text w 0) texts.
Proof.
  intros on w cells texts H; induction H as [|c t cells texts Hc H IH]; simpl; [reflexivity|].
  rewrite visible_app, IH, (row_seen on c t w 0 Hc); reflexivity.
Qed.
Lemma show_table : forall on p m cells texts, Forall2 (Forall2 reads) cells texts ->
  show on (Tab p m (map (fun c => (true, c)) cells)) (table_text p m texts).
Proof. intros on p m cells texts H. eexists; split; [apply table_out; exact H|]. apply table_seen; exact H. Qed.

(** ** What the spans of help.go read as *)

Lemma field_reads : forall f sep, reads (field_syntax_help f sep) (field_text sep f).
Proof.
  intros f sep; unfold field_syntax_help, field_text. destruct (is_optional (fd_argument f)).
  - match goal with |- reads (Writer ?t) ?u => replace u with (chars t); [constructor|] end.
    rewrite !chars_app. simpl. rewrite <- ?app_assoc; simpl. rewrite <- ?app_assoc; reflexivity.
  - match goal with |- reads (Writer ?t) ?u => replace u with (chars t); [constructor|] end.
    rewrite !chars_app. reflexivity.
Qed.
Lemma name_reads : forall m, reads (marker_name m) (chars "+" ++ chars (md_name m)).
Proof. intros m; unfold marker_name. destruct (md_deprecated m); constructor; exact (R_text (String "+" (md_name m))). Qed.
Lemma fields_read : forall style fs sep, (forall s t, reads s t -> reads (style s) t) ->
  reads (Many (fields_syntax style sep fs)) (match fs with [] => [] | f :: fs => field_text sep f ++ flat_map (field_text ",") fs end).
Proof.
  induction fs as [|f fs IH]; intros sep Hs; simpl; [constructor|]. constructor; [apply Hs, field_reads|].
  specialize (IH ","%string Hs). destruct fs; exact IH.
Qed.
Lemma style_reads : forall (m : marker_doc) s t, reads s t ->
  reads ((match md_deprecated m with Some _ => deprecated_style | None => field_summary_style end) s) t.
Proof. intros m s t H. destruct (md_deprecated m); constructor; exact H. Qed.
Lemma syntax_reads : forall m, reads (marker_syntax_help m) (syntax_text m).
Proof.
  intros m; unfold marker_syntax_help, syntax_text, is_empty, is_anonymous. rewrite app_assoc.
  destruct (md_fields m) as [|f fs] eqn:E; [constructor; [apply name_reads|constructor]|].
  constructor; [apply name_reads|].
  pose proof (fields_read _ (f :: fs) (if match fs with [] => String.eqb (fd_name f) "" | _ => false end then "" else ":")%string
                (style_reads m)) as H.
  replace (match fs with [] => match fd_name f with EmptyString => "" | String _ _ => ":" end | _ :: _ => ":" end)%string
    with (if match fs with [] => String.eqb (fd_name f) "" | _ => false end then "" else ":")%string; [exact H|].
  destruct fs; [|reflexivity]. destruct (fd_name f); reflexivity.
Qed.
Lemma brief_reads : forall m, reads (summary_span m) (brief m).
Proof.
  intros m; unfold summary_span, brief.
  assert (H : reads (Many [Text (summary (md_detail m))]) (chars (summary (md_detail m)))).
  { rewrite <- (app_nil_r (chars _)); constructor; [constructor|constructor]. }
  destruct (md_deprecated m) as [[|c u]|]; simpl Nat.ltb; cbv iota; [exact H| |exact H].
  rewrite <- !app_assoc. cbn [app]. repeat (constructor; [constructor; constructor|]). exact H.
Qed.

Lemma show_summary : forall on group ms, show on (markers_summary group ms) (summary_text group ms).
Proof.
  intros. unfold markers_summary, summary_text. apply show_many.
  apply shows_cons; [apply (show_reads on _ _ (R_text (String nl "")))|].
  apply shows_cons; [apply show_reads; constructor; constructor|].
  apply (shows_cons on _ _ [nl; nl]); [apply (show_reads on _ _ (R_text (String nl (String nl ""))))|].
  apply shows_cons; [|apply shows_one, (show_reads on _ _ (R_text (String nl "")))].
  rewrite <- (map_map (fun m => [marker_syntax_help m; marker_target_style (Text (md_target m)); summary_span m]) (fun c => (true, c)) ms).
  apply show_table. induction ms as [|m ms IH]; simpl; constructor; [|exact IH].
  constructor; [apply syntax_reads|]. constructor; [constructor; constructor|]. constructor; [apply brief_reads|constructor].
Qed.

(** ** The details *)

Lemma ok_newline : forall o f, ok true o -> ok f (Chr nl :: o).
Proof. intros; exact H. Qed.
Lemma visible_chars : forall t o, visible (map Chr t ++ o) = t ++ visible o.
Proof. intros; rewrite visible_app, visible_map; reflexivity. Qed.

Lemma brief_out : forall on m, exists o, write on (summary_span m) = Some o /\ ok true o.
Proof.
  intros on m. unfold summary_span.
  destruct (md_deprecated m) as [[|c u]|]; simpl Nat.ltb; cbv iota.
  - simpl. eexists; split; [reflexivity|]. rewrite app_nil_r. apply ok_plain.
  - destruct on; simpl; (eexists; split; [reflexivity|]); unfold bytes_of; simpl.
    + split; [intros _; eexists _, _; split; [reflexivity|discriminate]|].
      split; [discriminate|]. split; [discriminate|].
      change (ok (Ascii.eqb c nl) (((map Chr (chars u)) ++ [Esc "0"]) ++ Esc "1" :: Chr ")" :: Chr " " :: Esc "0" :: map Chr (chars (summary (md_detail m))) ++ [])).
      rewrite <- app_assoc. apply ok_chars. simpl. rewrite app_nil_r.
      split; [intros _; eexists _, _; split; [reflexivity|discriminate]|].
      split; [discriminate|]. split; [discriminate|]. apply ok_plain.
    + change (ok (Ascii.eqb c nl) (map Chr (chars u) ++ Chr ")" :: Chr " " :: map Chr (chars (summary (md_detail m))) ++ [])).
      apply ok_chars. simpl. rewrite app_nil_r. apply ok_plain.
  - simpl. eexists; split; [reflexivity|]. rewrite app_nil_r. apply ok_plain.
Qed.
Lemma show_brief : forall on n m, show on (Ind n (line (summary_span m))) (block n (brief m)).
Proof.
  intros. destruct (brief_out on m) as [o [H1 H2]]. destruct (reads_write on _ _ (brief_reads m)) as [o' [H3 H4]].
  rewrite H1 in H3; injection H3 as <-. apply (show_block on n _ o); assumption.
Qed.

Lemma reads_writer : forall t u, reads (Writer t) u -> chars t = u.
Proof. intros t u H; inversion H; reflexivity. Qed.
Lemma field_chars : forall f sep, exists t, field_syntax_help f sep = Writer t /\ chars t = field_text sep f.
Proof.
  intros f sep. pose proof (field_reads f sep) as H. unfold field_syntax_help in *.
  destruct (is_optional (fd_argument f)); eexists; (split; [reflexivity|]); apply reads_writer; exact H.
Qed.
Lemma field_ends : forall f sep b, after b (field_text sep f) = false.
Proof. intros f sep b; unfold field_text. destruct (is_optional (fd_argument f)); rewrite !after_app; reflexivity. Qed.
Lemma field_begins : forall f, (forall t, fd_name f <> String nl t) -> exists c t, field_text "" f = c :: t /\ c <> nl.
Proof.
  intros f H; unfold field_text. destruct (is_optional (fd_argument f)).
  - eexists _, _; split; [reflexivity|discriminate].
  - destruct (fd_name f) as [|c n]; [eexists _, _; split; [reflexivity|discriminate]|].
    exists c; eexists; split; [reflexivity|]. intros ->; exact (H n eq_refl).
Qed.
Lemma syntax_out : forall on f, (forall t, fd_name f <> String nl t) ->
  exists o, write on (field_detail_style (field_syntax_help f "")) = Some o /\ ok true o /\ visible o = field_text "" f /\
    forall rest, ok false rest -> ok true (o ++ rest).
Proof.
  intros on f Hf. destruct (field_chars f "") as [t [E Ht]]. rewrite E. simpl. unfold bytes_of; rewrite Ht.
  destruct (field_begins f Hf) as [c [u [Eu Hc]]].
  eexists; split; [reflexivity|].
  assert (G : forall rest, ok false rest -> ok true ((if on then Esc "3;32" :: map Chr (field_text "" f) ++ [Esc "0"] else map Chr (field_text "" f)) ++ rest)).
  { intros rest Hr. destruct on.
    - simpl. split.
      + intros _. exists c. rewrite Eu. eexists; split; [reflexivity|exact Hc].
      + rewrite <- app_assoc. apply ok_chars. rewrite field_ends. simpl. split; [discriminate|exact Hr].
    - apply ok_chars. rewrite field_ends. exact Hr. }
  split; [rewrite <- (app_nil_r (if on then _ else _)); apply G; exact I|]. split; [|exact G].
  destruct on; [|apply visible_map]. change (visible (map Chr (field_text "" f) ++ [Esc "0"]) = field_text "" f).
  rewrite visible_chars; simpl; apply app_nil_r.
Qed.
Lemma show_syntax : forall on f, (forall t, fd_name f <> String nl t) ->
  show on (Ind 1 (line (field_detail_style (field_syntax_help f "")))) (block 1 (field_text "" f)).
Proof. intros on f Hf. destruct (syntax_out on f Hf) as [o [H1 [H2 [H3 _]]]]. apply (show_block on 1 _ o); assumption. Qed.

Lemma show_extra : forall on full n d l u, shows on l u ->
  shows on (if has_details full d then Ind n (line (Text (details d))) :: l else []) (extra full n d u).
Proof.
  intros on full n d l u H. unfold has_details, extra. destruct full; [|rewrite andb_false_r; destruct (details d); apply shows_nil].
  destruct (details d) as [|a s] eqn:E; [apply shows_nil|]. cbv beta iota. simpl Nat.ltb. cbv iota. rewrite <- E. apply shows_cons; [apply show_block_text|exact H].
Qed.

Lemma ok_blanks : forall n f o, ok false o -> ok f o -> ok f (repeat (Chr " ") n ++ o).
Proof.
  intros [|n] f o H1 H2; [exact H2|]. simpl. clear f H2. induction n as [|n IH]; simpl; [exact H1|exact IH].
Qed.
Lemma show_fields_table : forall on fs, (forall f, In f fs -> forall t, fd_name f <> String nl t) ->
  show on (Ind 1 (Tab 2 0 (map (fun f => (true, [field_detail_style (field_syntax_help f ""); Text (summary (fd_detail f))])) fs)))
    (indented 1 true (table_text 2 0 (map (fun f => [field_text "" f; chars (summary (fd_detail f))]) fs))).
Proof.
  intros on fs Hn.
  set (cs := fun f => [field_detail_style (field_syntax_help f ""); Text (summary (fd_detail f))]).
  set (ts := fun f => [field_text "" f; chars (summary (fd_detail f))]).
  assert (R : Forall2 (Forall2 reads) (map cs fs) (map ts fs)).
  { clear Hn. induction fs as [|f fs IH]; simpl; constructor; [|exact IH].
    constructor; [constructor; apply field_reads|]. constructor; [constructor|constructor]. }
  change (map (fun f => (true, [field_detail_style (field_syntax_help f ""); Text (summary (fd_detail f))])) fs) with (map (fun f => (true, cs f)) fs).
  rewrite <- (map_map cs (fun c => (true, c)) fs).
  pose proof (table_seen on (col_width 2 0 (map ts fs)) _ _ R) as V. unfold table_text. fold ts. rewrite <- V.
  apply show_ind; [apply table_out; exact R|].
  set (w := col_width 2 0 (map ts fs)). clearbody w. clear R V.
  induction fs as [|f fs IH]; [exact I|]. cbn [map flat_map].
  set (rest := flat_map (row_items w 0) (map (map (cell_out on)) (map cs fs))) in *.
  assert (Hr : ok true rest) by (apply IH; intros g Hg; apply (Hn g (or_intror Hg))). clearbody rest. clear IH.
  destruct (syntax_out on f (Hn f (or_introl eq_refl))) as [o [H1 [_ [_ H4]]]].
  assert (Row : row_items w 0 [cell_out on (field_detail_style (field_syntax_help f "")); cell_out on (Text (summary (fd_detail f)))] =
      o ++ repeat (Chr " ") (w 0 - width (field_detail_style (field_syntax_help f ""))) ++
      bytes_of (summary (fd_detail f)) ++ repeat (Chr " ") (w 1 - String.length (summary (fd_detail f))) ++ [Chr nl]).
  { unfold cell_out. rewrite H1. reflexivity. }
  unfold cs at 1. cbn [map]. rewrite Row. clear Row. rewrite <- !app_assoc. apply H4.
  assert (T : forall g, ok g (Chr nl :: rest)) by (intros; exact Hr).
  assert (T2 : forall g n, ok g (repeat (Chr " ") n ++ Chr nl :: rest)) by (intros; apply ok_blanks; apply T).
  assert (T3 : forall g, ok g (bytes_of (summary (fd_detail f)) ++ repeat (Chr " ") (w 1 - String.length (summary (fd_detail f))) ++ Chr nl :: rest)).
  { intros; apply ok_chars, T2. }
  apply ok_blanks; apply T3.
Qed.

Lemma show_marker : forall on full m, (forall f, In f (md_fields m) -> forall t, fd_name f <> String nl t) ->
  shows on (marker_details full m) (marker_text full m).
Proof.
  intros on full m Hn. unfold marker_details, marker_text.
  set (tail := match md_fields m with [] => _ | _ => _ end).
  replace ([nl] ++ chars "+" ++ chars (md_name m) ++ chars " " ++ chars (md_target m) ++ tail)
    with ((nl :: chars "+" ++ chars (md_name m)) ++ chars " " ++ chars (md_target m) ++ tail)
    by (simpl; rewrite <- ?app_assoc; reflexivity).
  cbn [app].
  apply (shows_cons on _ _ (nl :: chars "+" ++ chars (md_name m))); [apply show_line, show_reads, name_reads|].
  apply shows_cons; [apply show_reads; constructor|].
  apply shows_cons; [apply show_reads; constructor; constructor|].
  unfold tail; clear tail. unfold is_anonymous, is_empty.
  assert (X : forall n, shows on (if has_details full (md_detail m) then [Ind n (line (Text (details (md_detail m))))] else []) (extra full n (md_detail m) []))
    by (intros; apply show_extra, shows_nil).
  assert (N1 : shows on [newlines 1] [nl]) by (apply shows_one, (show_newlines on 1)).
  destruct (md_fields m) as [|f fs] eqn:E.
  - cbn [negb app]. apply shows_cons; [apply show_brief|]. apply shows_app; [apply X|exact N1].
  - assert (Common : forall u l, shows on l u ->
      shows on ((Ind 1 (line (summary_span m)) :: (if has_details full (md_detail m) then [Ind 1 (line (Text (details (md_detail m))))] else [])) ++ newlines 1 :: l)
        (block 1 (brief m) ++ extra full 1 (md_detail m) [] ++ [nl] ++ u)).
    { intros u l Hu. rewrite <- app_comm_cons. apply shows_cons; [apply show_brief|]. apply shows_app; [apply X|].
      apply (shows_cons on _ _ [nl]); [apply (show_newlines on 1)|exact Hu]. }
    assert (Fields : forall g, In g (f :: fs) -> shows on (field_details full g)
        (block 1 (field_text "" g) ++ block 2 (chars (summary (fd_detail g))) ++ extra full 2 (fd_detail g) [nl])).
    { intros g Hg. unfold field_details. apply shows_cons; [apply show_syntax; intros; apply Hn; exact Hg|].
      apply shows_cons; [apply show_block_text|]. apply show_extra; exact N1. }
    assert (Named : shows on
       ((Ind 1 (line (summary_span m)) :: (if has_details full (md_detail m) then [Ind 1 (line (Text (details (md_detail m))))] else [])) ++
        newlines 1 :: (if full then flat_map (field_details full) (f :: fs) ++ [newlines 1]
          else [Ind 1 (Tab 2 0 (map (fun f => (true, [field_detail_style (field_syntax_help f ""); Text (summary (fd_detail f))])) (f :: fs)))]))
       (block 1 (brief m) ++ extra full 1 (md_detail m) [] ++ [nl] ++
          (if full
           then flat_map (fun f => block 1 (field_text "" f) ++ block 2 (chars (summary (fd_detail f))) ++ extra full 2 (fd_detail f) [nl]) (f :: fs) ++ [nl]
           else indented 1 true (table_text 2 0 (map (fun f => [field_text "" f; chars (summary (fd_detail f))]) (f :: fs)))))).
    { apply Common. destruct full.
      - apply shows_app; [apply shows_flat; exact Fields|exact N1].
      - apply shows_one, show_fields_table. exact Hn. }
    destruct fs as [|f2 fs]; [|exact Named].
    destruct (fd_name f) eqn:Ef; [|exact Named].
    simpl String.eqb; cbv iota. cbn [firstn map app].
    apply shows_cons; [apply show_syntax; intros; apply Hn; left; reflexivity|].
    apply shows_cons; [apply show_reads; constructor|].
    apply shows_cons; [apply show_reads, brief_reads|].
    apply shows_app; [apply X|exact N1].
Qed.

Lemma show_details : forall on full group ms, plain_names ms -> show on (markers_details full group ms) (details_text full group ms).
Proof.
  intros on full group ms H. unfold markers_details, details_text. apply show_many. cbn [app].
  change (nl :: chars group ++ nl :: nl :: flat_map (marker_text full) ms) with ((nl :: chars group) ++ [nl; nl] ++ flat_map (marker_text full) ms).
  apply shows_cons; [apply show_line, show_reads; constructor; constructor|].
  apply (shows_cons on _ _ [nl; nl]); [apply (show_newlines on 2)|].
  apply shows_flat. intros m Hm. apply show_marker. intros f Hf; apply (H m f Hm Hf).
Qed.
