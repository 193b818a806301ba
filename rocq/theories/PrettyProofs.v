(** * Proofs about the printed help: padding, widths, rows, indentation. *)

From Coq Require Import List String Ascii Bool Arith Lia.
From Verif Require Import HelpModel PrettyModel PrettySpec.
Import ListNotations.
Open Scope list_scope.

(** ** Padding *)

Lemma firstn_repeat : forall (A : Type) (c : A) L n, n <= L -> firstn n (repeat c L) = repeat c n.
Proof. induction L as [|L IH]; intros [|n] Hn; simpl; try reflexivity; try lia. rewrite IH by lia; reflexivity. Qed.
Lemma concat_repeat : forall (A : Type) (c : A) L q, List.concat (repeat (repeat c L) q) = repeat c (q * L).
Proof. induction q as [|q IH]; simpl; [reflexivity|]. rewrite IH, repeat_app; reflexivity. Qed.
Lemma padding_is : forall c L n, 0 < L -> write_padding (repeat c L) n = repeat c n.
Proof.
  intros c L n HL; unfold write_padding; rewrite repeat_length.
  destruct (Nat.leb n L) eqn:E; [apply Nat.leb_le in E; apply firstn_repeat; exact E|].
  rewrite concat_repeat, firstn_repeat by (apply Nat.lt_le_incl, Nat.mod_upper_bound; lia).
  rewrite <- repeat_app; f_equal. rewrite (Nat.div_mod n L) at 3 by lia. lia.
Qed.
Lemma column_padding_is : forall n, write_padding column_padding n = repeat (Chr " ") n.
Proof. intros; apply padding_is; lia. Qed.
Lemma indent_padding_is : forall n, write_padding indent_padding n = repeat (Chr tab) n.
Proof. intros; apply padding_is; lia. Qed.
Lemma lines_padding_is : forall n, write_padding lines_padding n = repeat (Chr nl) n.
Proof. intros; apply padding_is; lia. Qed.

(** ** What is seen *)

Lemma visible_app : forall a b, visible (a ++ b) = visible a ++ visible b.
Proof. intros; apply flat_map_app. Qed.
Lemma visible_map : forall t, visible (map Chr t) = t.
Proof. induction t; simpl; [reflexivity|]. f_equal; exact IHt. Qed.
Lemma visible_bytes : forall t, visible (bytes_of t) = chars t.
Proof. intros; apply visible_map. Qed.
Lemma visible_repeat : forall c n, visible (repeat (Chr c) n) = repeat c n.
Proof. induction n; simpl; [reflexivity|]. f_equal; exact IHn. Qed.
Lemma length_chars : forall t, List.length (chars t) = String.length t.
Proof. induction t; simpl; [reflexivity|]. f_equal; exact IHt. Qed.
Lemma chars_app : forall a b, chars (a ++ b)%string = chars a ++ chars b.
Proof. induction a; intros; simpl; [reflexivity|]. f_equal; apply IHa. Qed.

Lemma sum_acc : forall l a, fold_left (fun n s => n + s) l a = a + fold_left (fun n s => n + s) l 0.
Proof. induction l as [|x l IH]; intros a; simpl; [lia|]. rewrite (IH (a + x)), (IH x); lia. Qed.

Lemma reads_width : forall s t, reads s t -> width s = List.length t.
Proof.
  induction 1; simpl; try (symmetry; apply length_chars); try assumption; [reflexivity|].
  rewrite sum_acc, app_length. simpl in IHreads2. rewrite IHreads1, IHreads2; reflexivity.
Qed.
Lemma reads_write : forall on s t, reads s t -> exists o, write on s = Some o /\ visible o = t.
Proof.
  intros on; induction 1; simpl; try (eexists; split; [reflexivity|]; apply visible_bytes).
  - destruct IHreads as [o [-> Ho]]. eexists; split; [reflexivity|].
    destruct on; [|exact Ho]. change (visible (o ++ [Esc "0"]) = t). rewrite visible_app; simpl; rewrite app_nil_r; exact Ho.
  - exists []; split; reflexivity.
  - destruct IHreads1 as [o1 [-> H1]]; destruct IHreads2 as [o2 [E2 H2]]; simpl in E2. rewrite E2; simpl.
    exists (o1 ++ o2); split; [reflexivity|]. rewrite visible_app, H1, H2; reflexivity.
Qed.

(** ** Widths *)

Definition mx (l : list nat) : nat := fold_left (fun m s => if Nat.ltb m s then s else m) l 0.
Lemma mx_app : forall l x, mx (l ++ [x]) = Nat.max (mx l) x.
Proof.
  intros; unfold mx; rewrite fold_left_app; simpl.
  destruct (Nat.ltb _ x) eqn:E; [apply Nat.ltb_lt in E | apply Nat.ltb_ge in E]; lia.
Qed.
Lemma append_length : forall cols sizes, List.length (append_sizes cols sizes) = List.length cols.
Proof. induction cols as [|c cols IH]; intros [|s sizes]; simpl; try reflexivity. f_equal; apply IH. Qed.
Lemma append_nth : forall cols sizes k, List.length sizes <= List.length cols ->
  mx (nth k (append_sizes cols sizes) []) = Nat.max (mx (nth k cols [])) (nth k sizes 0).
Proof.
  induction cols as [|c cols IH]; intros [|s sizes] k H; simpl in H; try lia.
  - destruct k; reflexivity.
  - destruct k; simpl append_sizes; simpl nth; rewrite Nat.max_0_r; reflexivity.
  - destruct k; simpl; [apply mx_app | apply IH; lia].
Qed.
Lemma nth_more : forall (cols : list (list nat)) n k, nth k (cols ++ repeat [] n) [] = nth k cols [].
Proof.
  intros cols n k. destruct (Nat.lt_ge_cases k (List.length cols)) as [H|H].
  - apply app_nth1; exact H.
  - rewrite app_nth2, (nth_overflow cols) by exact H. generalize (k - List.length cols).
    induction n; intros [|j]; simpl; try reflexivity; apply IHn.
Qed.
Lemma add_nth : forall cols sizes k,
  mx (nth k (add_row_sizes cols sizes) []) = Nat.max (mx (nth k cols [])) (nth k sizes 0).
Proof.
  intros; unfold add_row_sizes.
  destruct (Nat.ltb (List.length cols) (List.length sizes)) eqn:E; [apply Nat.ltb_lt in E | apply Nat.ltb_ge in E].
  - rewrite append_nth by (rewrite app_length, repeat_length; lia). rewrite nth_more; reflexivity.
  - apply append_nth; exact E.
Qed.
Lemma add_length : forall cols sizes, List.length (add_row_sizes cols sizes) = Nat.max (List.length cols) (List.length sizes).
Proof.
  intros; unfold add_row_sizes; rewrite append_length.
  destruct (Nat.ltb (List.length cols) (List.length sizes)) eqn:E; [apply Nat.ltb_lt in E | apply Nat.ltb_ge in E];
    rewrite ?app_length, ?repeat_length; lia.
Qed.
Lemma rows_nth : forall rows cols k,
  mx (nth k (fold_left add_row_sizes rows cols) []) = Nat.max (mx (nth k cols [])) (list_max (map (fun r => nth k r 0) rows)).
Proof.
  induction rows as [|r rows IH]; intros; simpl; [lia|]. rewrite IH, add_nth. lia.
Qed.
Lemma rows_length : forall rows cols r, (In r rows -> List.length r <= List.length (fold_left add_row_sizes rows cols)) /\
  List.length cols <= List.length (fold_left add_row_sizes rows cols).
Proof.
  induction rows as [|x rows IH]; intros cols r; simpl; [split; [intros []|lia]|].
  pose proof (add_length cols x) as HL. destruct (IH (add_row_sizes cols x) r) as [H1 H2]. split; [|lia].
  intros [->|H]; [|apply H1; exact H]. lia.
Qed.
Lemma widths_nth : forall p m (rows : list (list (list ascii))) k r, In r rows -> k < List.length r ->
  nth_error (widths_of p m (map (map (@List.length ascii)) rows)) k = Some (col_width p m rows k).
Proof.
  intros p m rows k r Hr Hk. unfold widths_of, column_widths.
  set (cols := fold_left add_row_sizes (map (map (@List.length ascii)) rows) []).
  assert (Hc : k < List.length cols).
  { unfold cols. destruct (rows_length (map (map (@List.length ascii)) rows) [] (map (@List.length ascii) r)) as [H _].
    specialize (H (in_map _ _ _ Hr)). rewrite map_length in H. lia. }
  rewrite nth_error_map, nth_error_map, (nth_error_nth' cols [] Hc); simpl. f_equal.
  change (fold_left (fun m s => if Nat.ltb m s then s else m) (nth k cols []) 0) with (mx (nth k cols [])).
  unfold cols; rewrite rows_nth. replace (mx (nth k [] [])) with 0 by (destruct k; reflexivity).
  unfold col_width. rewrite map_map, Nat.max_0_l.
  replace (map (fun x => nth k (map (@List.length ascii) x) 0) rows) with (map (fun r => List.length (nth k r [])) rows)
    by (apply map_ext; intros; symmetry; apply (map_nth (@List.length ascii) a [] k)).
  set (w := list_max _).
  destruct (Nat.leb m p) eqn:E; [apply Nat.leb_le in E | apply Nat.leb_gt in E].
  - replace (m - p) with 0 by lia. simpl. lia.
  - replace (Nat.ltb 0 (m - p)) with true by (symmetry; apply Nat.ltb_lt; lia). simpl.
    destruct (Nat.ltb (m - p) w) eqn:F; [apply Nat.ltb_lt in F | apply Nat.ltb_ge in F]; lia.
Qed.

(** ** Rows *)

Fixpoint row_items (w : nat -> nat) (k : nat) (l : list (out * nat)) : out :=
  match l with
  | [] => [Chr nl]
  | (o, n) :: l => o ++ repeat (Chr " ") (w k - n) ++ row_items w (S k) l
  end.
Lemma fill : forall n w, (if Nat.ltb n w then write_padding column_padding (w - n) else []) = repeat (Chr " ") (w - n).
Proof.
  intros; destruct (Nat.ltb n w) eqn:E; [apply column_padding_is|]. apply Nat.ltb_ge in E. replace (w - n) with 0 by lia; reflexivity.
Qed.
Lemma row_written : forall (l : list (out * nat)) ws w k,
  (forall j, j < List.length l -> nth_error ws j = Some (w (k + j))) ->
  write_row ws (map (fun x => (Some (fst x), snd x)) l) = Some (row_items w k l).
Proof.
  induction l as [|[o n] l IH]; intros ws w k H; simpl; [reflexivity|].
  destruct ws as [|x ws]; [specialize (H 0 (Nat.lt_0_succ _)); discriminate|].
  pose proof (H 0 (Nat.lt_0_succ _)) as H0; simpl in H0. rewrite Nat.add_0_r in H0; injection H0 as ->.
  rewrite (IH ws w (S k)).
  - simpl. rewrite fill, app_nil_r; reflexivity.
  - intros j Hj. specialize (H (S j)). simpl in H. rewrite H by lia. f_equal; f_equal; lia.
Qed.

Definition cell (on : bool) (s : span) (t : list ascii) (x : out * nat) : Prop :=
  write on s = Some (fst x) /\ width s = snd x /\ visible (fst x) = t /\ snd x = List.length t.
Lemma cell_reads : forall on s t, reads s t -> exists x, cell on s t x.
Proof.
  intros on s t H. destruct (reads_write on s t H) as [o [H1 H2]]. exists (o, List.length t).
  repeat split; simpl; auto. apply reads_width; exact H.
Qed.

(** A table whose cells are written as [outs] and read as [texts]. *)
Lemma table_written : forall on p m (cells : list (list span)) (texts : list (list (list ascii))) (outs : list (list (out * nat))),
  Forall2 (fun cs x => Forall2 (fun ct y => cell on (fst ct) (snd ct) y) (combine cs (fst x)) (snd x) /\
                       List.length cs = List.length (fst x)) cells (combine texts outs) ->
  List.length texts = List.length outs ->
  write on (Tab p m (map (fun c => (true, c)) cells)) = Some (flat_map (row_items (col_width p m texts) 0) outs).
Proof.
  intros on p m cells texts outs H Hlen.
  simpl.
  set (sizes := flat_map _ (map (fun c => (true, c)) cells)).
  assert (Hs : sizes = map (map (@List.length ascii)) texts).
  { unfold sizes. clear sizes. revert texts outs H Hlen.
    induction cells as [|c cells IH]; intros texts outs H Hlen; destruct texts as [|t texts], outs as [|o outs]; simpl in *;
      try discriminate; inversion H; subst; [reflexivity|].
    match goal with X : _ /\ _ |- _ => destruct X as [Hc Hl] end. simpl in Hc, Hl.
    injection Hlen as Hlen. f_equal; [|eapply IH; eassumption].
    clear - Hc Hl. revert t o Hc Hl. induction c as [|s c IHc]; intros [|t ts] o Hc Hl; simpl in *; try discriminate; [reflexivity|].
    inversion Hc; subst. match goal with X : cell _ _ _ _ |- _ => destruct X as [_ [Hw [_ Hn]]] end. simpl in Hw, Hn.
    f_equal; [congruence|]. eapply IHc; [eassumption|congruence]. }
  rewrite Hs. clear sizes Hs.
  assert (G : forall t x, In (t, x) (combine texts outs) -> In t texts) by (intros t x; apply in_combine_l).
  set (ws := widths_of p m (map (map (@List.length ascii)) texts)).
  assert (W : forall t k, In t texts -> k < List.length t -> nth_error ws k = Some (col_width p m texts k)).
  { intros t k Ht Hk; unfold ws; eapply widths_nth; eassumption. }
  set (w := col_width p m texts) in *. clearbody w ws.
  revert texts outs H Hlen G W.
  induction cells as [|c cells IH]; intros texts outs H Hlen G W; destruct texts as [|t texts], outs as [|o outs]; simpl in *;
    try discriminate; inversion H; subst; [reflexivity|].
  match goal with X : _ /\ _ |- _ => destruct X as [Hc Hl] end. simpl in Hc, Hl. injection Hlen as Hlen.
  assert (R : map (fun c0 => (write on c0, width c0)) c = map (fun x => (Some (fst x), snd x)) o /\ List.length o = List.length t).
  { clear - Hc Hl. revert t o Hc Hl. induction c as [|s c IHc]; intros [|t ts] o Hc Hl; simpl in *; try discriminate;
      inversion Hc; subst; [split; reflexivity|].
    match goal with X : cell _ _ _ _ |- _ => destruct X as [Hw [Hn _]] end. simpl in Hw, Hn.
    injection Hl as Hl. match goal with X : Forall2 _ _ _ |- _ => specialize (IHc _ _ X Hl); destruct IHc as [E1 E2] end.
    split; [simpl; f_equal; [rewrite Hw, Hn; reflexivity | exact E1] | simpl; congruence]. }
  destruct R as [R1 R2]. rewrite R1, (row_written o ws w 0).
  2:{ intros j Hj. apply (W t); [left; reflexivity|lia]. }
  simpl. match goal with X : Forall2 _ cells _ |- _ => rewrite (IH texts outs X Hlen) end.
  - reflexivity.
  - intros t' x' Hin; eapply in_combine_l; exact Hin.
  - intros t' k Ht Hk; apply (W t'); [right; exact Ht|exact Hk].
Qed.
Lemma row_visible : forall (l : list (out * nat)) (ts : list (list ascii)) w k,
  Forall2 (fun x t => visible (fst x) = t /\ snd x = List.length t) l ts -> visible (row_items w k l) = row_text w k ts.
Proof.
  intros l ts w k H; revert k. induction H as [|[o n] t l ts [H1 H2] H IH]; intros k; [reflexivity|].
  cbn [row_items row_text fst snd] in *. rewrite !visible_app, visible_repeat, IH, H1, H2; reflexivity.
Qed.

(** ** Indentation *)

Fixpoint indent_items (n : nat) (fresh : bool) (o : out) : out :=
  match o with
  | [] => []
  | Chr a :: o => if Ascii.eqb a nl then Chr a :: indent_items n true o
                  else (if fresh then repeat (Chr tab) n else []) ++ Chr a :: indent_items n false o
  | Esc e :: o => (if fresh then repeat (Chr tab) n else []) ++ Esc e :: indent_items n false o
  end.
Lemma lines_items : forall n o, exists l ls, split_lines o = l :: ls /\
  write_lines n (l :: ls) = indent_items n true o /\
  l ++ flat_map (fun l => Chr nl :: indent_line n l) ls = indent_items n false o.
Proof.
  induction o as [|x o IH]; [exists [], []; repeat split|].
  destruct IH as [l [ls [E [H1 H2]]]]. destruct x as [a|e]; cbn [split_lines]; rewrite E; cbn [indent_items].
  - destruct (Ascii.eqb a nl) eqn:Ea.
    + apply Ascii.eqb_eq in Ea; subst a. exists [], (l :: ls). split; [reflexivity|].
      split; cbn [write_lines indent_line flat_map app]; rewrite <- H1; reflexivity.
    + exists (Chr a :: l), ls. split; [reflexivity|]. split.
      * cbn [write_lines indent_line]. rewrite indent_padding_is, <- app_assoc, <- H2; reflexivity.
      * rewrite <- H2; reflexivity.
  - exists (Esc e :: l), ls. split; [reflexivity|]. split.
    + cbn [write_lines indent_line]. rewrite indent_padding_is, <- app_assoc, <- H2; reflexivity.
    + rewrite <- H2; reflexivity.
Qed.
Lemma indent_is : forall n o, write_lines n (split_lines o) = indent_items n true o.
Proof. intros; destruct (lines_items n o) as [l [ls [-> [H _]]]]; exact H. Qed.

(** Every escape sequence at the beginning of a line is followed by a character of that line. *)
Fixpoint ok (fresh : bool) (o : out) : Prop :=
  match o with
  | [] => True
  | Chr a :: o => ok (Ascii.eqb a nl) o
  | Esc _ :: o => (fresh = true -> exists c t, visible o = c :: t /\ c <> nl) /\ ok false o
  end.
Lemma ok_indent : forall n o fresh, ok fresh o -> visible (indent_items n fresh o) = indented n fresh (visible o).
Proof.
  induction o as [|[a|e] o IH]; intros fresh H; [reflexivity| |]; cbn [ok] in H; cbn [indent_items].
  - cbn [visible flat_map app indented]. fold (visible o). destruct (Ascii.eqb a nl) eqn:E.
    + cbn [visible flat_map app]. f_equal. apply IH. exact H.
    + rewrite visible_app. f_equal; [destruct fresh; [apply visible_repeat|reflexivity]|].
      cbn [visible flat_map app]. f_equal. apply IH; exact H.
  - destruct H as [H1 H2]. rewrite visible_app. cbn [visible flat_map app]. fold (visible (indent_items n false o)). fold (visible o).
    rewrite (IH false H2). destruct fresh; [|reflexivity].
    destruct (H1 eq_refl) as [c [t [E Hc]]]. rewrite E, visible_repeat. cbn [indented].
    apply Ascii.eqb_neq in Hc; rewrite Hc. reflexivity.
Qed.
Fixpoint after (fresh : bool) (t : list ascii) : bool := match t with [] => fresh | c :: t => after (Ascii.eqb c nl) t end.
Lemma ok_chars : forall t fresh o, ok (after fresh t) o -> ok fresh (map Chr t ++ o).
Proof. induction t as [|c t IH]; intros fresh o H; simpl; [exact H|]. apply IH; exact H. Qed.
Lemma ok_plain : forall t fresh, ok fresh (map Chr t).
Proof. induction t as [|c t IH]; intros fresh; simpl; [exact I|]. apply IH. Qed.
Lemma after_app : forall a b fresh, after fresh (a ++ b) = after (after fresh a) b.
Proof. induction a as [|c a IH]; intros; simpl; [reflexivity|]. apply IH. Qed.
Lemma ok_join : forall a b fresh, ok fresh a -> (forall f, ok f b) -> ok fresh (a ++ b).
Proof.
  induction a as [|[c|e] a IH]; intros b fresh H Hb; simpl in *; [apply Hb|apply IH; assumption|].
  destruct H as [H1 H2]. split; [|apply IH; assumption].
  intros F. destruct (H1 F) as [c [t [E Hc]]]. exists c, (t ++ visible b). split; [|exact Hc]. rewrite visible_app, E; reflexivity.
Qed.
