(** * C68: the printed help has the text that the documentation says, laid out in columns that line up. *)

From Coq Require Import List String Ascii Bool Arith Lia.
From Verif Require Import HelpModel PrettyModel PrettySpec PrettyProofs PrettyProofs2.
Import ListNotations.
Open Scope list_scope.

(** The summary of a group is its heading and a table of all its markers, each with its syntax, its target and its summary; with colours
    and without. *)
Theorem pretty_summary : forall colours group ms, exists o,
  write colours (markers_summary group ms) = Some o /\ visible o = summary_text group ms.
Proof. intros; apply show_summary. Qed.

(** The details of a group are its heading and all its markers with their fields, indented; with colours and without. *)
Theorem pretty_details : forall colours full group ms, plain_names ms -> exists o,
  write colours (markers_details full group ms) = Some o /\ visible o = details_text full group ms.
Proof. intros; apply show_details; assumption. Qed.

(** What main prints of a category: the summary, the details or all of them, by the number of times that help was asked for. *)
Theorem pretty_help : forall colours level c, 1 <= level <= 3 -> plain_names (cd_markers c) -> exists o,
  write colours (help_span level c) = Some o /\
  (level = 1 -> visible o = summary_text (cd_category c) (cd_markers c)) /\
  (level = 2 -> visible o = details_text false (cd_category c) (cd_markers c)) /\
  (level = 3 -> visible o = details_text true (cd_category c) (cd_markers c)).
Proof.
  intros colours level c [H1 H3] Hp. destruct level as [|[|[|[|n]]]]; try lia.
  - destruct (pretty_summary colours (cd_category c) (cd_markers c)) as [o [E V]]. exists o; repeat split; try discriminate; auto.
  - destruct (pretty_details colours false (cd_category c) (cd_markers c) Hp) as [o [E V]]. exists o; repeat split; try discriminate; auto.
  - destruct (pretty_details colours true (cd_category c) (cd_markers c) Hp) as [o [E V]]. exists o; repeat split; try discriminate; auto.
Qed.

(** A span has the length that it is said to have, and shows the texts in it. *)
Theorem pretty_width : forall colours s t, reads s t -> width s = List.length t /\
  exists o, write colours s = Some o /\ visible o = t.
Proof. intros colours s t H; split; [apply reads_width; exact H | apply reads_write; exact H]. Qed.

(** A table is its cells filled up with blanks to the width of their column. *)
Theorem pretty_table : forall colours p m cells texts, Forall2 (Forall2 reads) cells texts -> exists o,
  write colours (Tab p m (map (fun c => (true, c)) cells)) = Some o /\ visible o = table_text p m texts.
Proof. intros; apply show_table; assumption. Qed.

Lemma offset_shift : forall (w : nat -> nat) k j, list_sum (map w (seq k (S j))) = w k + list_sum (map w (seq (S k) j)).
Proof. reflexivity. Qed.
Lemma row_columns : forall w r k j c,
  (forall i x, nth_error r i = Some x -> List.length x <= w (k + i)) -> nth_error r j = Some c ->
  exists before behind, row_text w k r = before ++ c ++ repeat " "%char (w (k + j) - List.length c) ++ behind /\
    List.length before = list_sum (map w (seq k j)).
Proof.
  intros w r; induction r as [|x r IH]; intros k j c Hw Hj; [destruct j; discriminate|].
  destruct j as [|j].
  - injection Hj as ->. exists [], (row_text w (S k) r). rewrite Nat.add_0_r. split; reflexivity.
  - simpl in Hj. destruct (IH (S k) j c) as [before [behind [E HL]]]; [|exact Hj|].
    + intros i y Hy. specialize (Hw (S i) y Hy). replace (S k + i) with (k + S i) by lia. exact Hw.
    + exists (x ++ repeat " "%char (w k - List.length x) ++ before), behind. split.
      * cbn [row_text]. rewrite E, <- !app_assoc. replace (k + S j) with (S k + j) by lia. reflexivity.
      * rewrite offset_shift, !app_length, repeat_length, HL. specialize (Hw 0 x eq_refl). rewrite Nat.add_0_r in Hw. lia.
Qed.
Lemma fits : forall p m rows r k x, m <= p -> In r rows -> nth_error r k = Some x -> List.length x + p <= col_width p m rows k.
Proof.
  intros p m rows r k x Hm Hr Hx. unfold col_width. apply Nat.leb_le in Hm; rewrite Hm.
  pose proof (proj1 (list_max_le (map (fun r => List.length (nth k r [])) rows) _) (Nat.le_refl _)) as F.
  rewrite Forall_forall in F. specialize (F (List.length x)).
  rewrite in_map_iff in F. specialize (F (ex_intro _ r (conj (f_equal (@List.length ascii) (nth_error_nth r k [] Hx)) Hr))). lia.
Qed.

(** Without a limit on the width, there is for every column one place where it begins in every row, and after every cell there are
    at least as many blanks as the padding says. *)
Theorem pretty_columns : forall colours p m cells texts, m <= p -> Forall2 (Forall2 reads) cells texts ->
  exists o (rows : list (list ascii)) (place : nat -> nat),
    write colours (Tab p m (map (fun c => (true, c)) cells)) = Some o /\ visible o = List.concat rows /\
    Forall2 (fun row text => forall k c, nth_error text k = Some c ->
      exists before behind blanks, row = before ++ c ++ repeat " "%char blanks ++ behind /\ List.length before = place k /\ p <= blanks) rows texts.
Proof.
  intros colours p m cells texts Hm H. destruct (pretty_table colours p m cells texts H) as [o [H1 H2]].
  exists o, (map (row_text (col_width p m texts) 0) texts), (fun k => list_sum (map (col_width p m texts) (seq 0 k))).
  split; [exact H1|]. split; [rewrite H2; unfold table_text; apply flat_map_concat_map|].
  assert (G : forall l, (forall r, In r l -> In r texts) ->
    Forall2 (fun row text => forall k c, nth_error text k = Some c ->
      exists before behind blanks, row = before ++ c ++ repeat " "%char blanks ++ behind /\
        List.length before = list_sum (map (col_width p m texts) (seq 0 k)) /\ p <= blanks) (map (row_text (col_width p m texts) 0) l) l).
  { induction l as [|r l IH]; intros Hl; simpl; constructor.
    - intros k c Hk.
      assert (F : forall i x, nth_error r i = Some x -> List.length x + p <= col_width p m texts i)
        by (intros i x Hx; apply (fits p m texts r i x Hm); [apply Hl; left; reflexivity|exact Hx]).
      destruct (row_columns (col_width p m texts) r 0 k c) as [before [behind [E HL]]]; [|exact Hk|].
      + intros i x Hx. specialize (F i x Hx). simpl. lia.
      + exists before, behind, (col_width p m texts (0 + k) - List.length c). split; [exact E|]. split; [exact HL|].
        specialize (F k c Hk). simpl. lia.
    - apply IH. intros; apply Hl; right; assumption. }
  apply G; auto.
Qed.

(** An indented text has the tabs before every line that is not empty; any number of them. *)
Theorem pretty_indent : forall colours n t, exists o,
  write colours (Ind n (Text t)) = Some o /\ visible o = indented n true (chars t).
Proof.
  intros. destruct (show_ind colours n (Text t) (bytes_of t) eq_refl (ok_plain _ _)) as [o [H1 H2]].
  exists o; split; [exact H1|]. rewrite H2, visible_bytes; reflexivity.
Qed.

(** Any number of newlines. *)
Theorem pretty_newlines : forall colours n, exists o, write colours (newlines n) = Some o /\ visible o = repeat nl n.
Proof. intros; apply show_newlines. Qed.

(** Characters, as UTF-8 encodes them: bytes that do not continue one. *)
Definition characters (t : list ascii) : nat :=
  List.length (filter (fun a => negb (Nat.leb 128 (nat_of_ascii a) && Nat.ltb (nat_of_ascii a) 192)) t).

(** Columns line up in bytes and not in characters: two cells of one character, and the next column begins in different places. *)
Theorem pretty_characters_refuted : exists (a b : string) (l1 l2 : list ascii),
  characters (chars a) = characters (chars b) /\
  option_map visible (write false (Tab 2 0 [(true, [Text a; Text "x"]); (true, [Text b; Text "x"])])) =
    Some (l1 ++ chars "x  " ++ [nl] ++ l2 ++ chars "x  " ++ [nl]) /\
  characters l1 <> characters l2.
Proof.
  exists (String "195" (String "169" "")), "e"%string, (["195"; "169"; " "; " "]%char), (["e"; " "; " "; " "]%char).
  vm_compute. repeat split. discriminate.
Qed.

(** A cell wider than the limit is neither cut nor set apart: the next cell follows at once, wherever that is. *)
Theorem pretty_limit_refuted : exists p m a b, 0 < p < m /\
  option_map visible (write false (Tab p m [(true, [Text a; Text b])])) = Some (chars a ++ chars b ++ repeat " "%char p ++ [nl]).
Proof. exists 2, 5, "abcdefg"%string, "x"%string. split; [lia|]. vm_compute. reflexivity. Qed.

(** A row that does not count for the widths cannot be written in a table that has no other: the index of its column is out of range. *)
Theorem pretty_skip_refuted : exists p m s, write false s <> None /\ write false (Tab p m [(false, [s])]) = None.
Proof. exists 2, 0, (Text "a"). split; [discriminate|reflexivity]. Qed.

(** In general colours do change what is seen: an empty line that is decorated is indented with colours and not without. *)
Theorem pretty_colours_refuted : exists s o o', write true s = Some o /\ write false s = Some o' /\ visible o <> visible o'.
Proof.
  exists (Ind 1 (Dec "1" (Text ""))). eexists _, _. split; [reflexivity|]. split; [reflexivity|]. vm_compute. discriminate.
Qed.

Print Assumptions pretty_summary.
Print Assumptions pretty_details.
Print Assumptions pretty_help.
Print Assumptions pretty_width.
Print Assumptions pretty_table.
Print Assumptions pretty_columns.
Print Assumptions pretty_indent.
Print Assumptions pretty_newlines.
Print Assumptions pretty_characters_refuted.
Print Assumptions pretty_limit_refuted.
Print Assumptions pretty_skip_refuted.
Print Assumptions pretty_colours_refuted.

(** ** Concrete cases *)

Definition maximum : marker_doc :=
  mkMarkerDoc "validation:Maximum" "field" (mkDetail "sets the maximum" "") "validation" None
    [mkFieldDoc "" (mkHArgument "int" false None) (mkDetail "" "")].
Definition column : marker_doc :=
  mkMarkerDoc "printcolumn" "type" (mkDetail "adds a column" "It is shown by get.") "CRD" (Some "column"%string)
    [mkFieldDoc "JSONPath" (mkHArgument "string" false None) (mkDetail "says where" "In dots.");
     mkFieldDoc "priority" (mkHArgument "int" true None) (mkDetail "says how much" "")].
Definition root : marker_doc := mkMarkerDoc "root" "type" (mkDetail "marks a root" "") "object" None [].

Definition unlines (l : list string) : list ascii := flat_map (fun t => chars t ++ [nl]) l.
Definition t1 (s : string) : string := String tab s.

Example pretty_summary_case : option_map visible (write true (markers_summary "all" [maximum; column; root])) = Some (unlines
  [""; "all"; "";
   "+validation:Maximum=<int>                        field  sets the maximum            ";
   "+printcolumn:JSONPath=<string>[,priority=<int>]  type   (use column) adds a column  ";
   "+root                                            type   marks a root                "; ""]%string).
Proof. vm_compute. reflexivity. Qed.

Example pretty_details_case : option_map visible (write true (markers_details false "all" [column; root])) = Some (unlines
  [""; "all"; ""; ""; "+printcolumn type"; t1 "(use column) adds a column";
   t1 "JSONPath=<string>  says where     "; t1 "[priority=<int>]   says how much  "; "";
   "+root type"; t1 "marks a root"]%string).
Proof. vm_compute. reflexivity. Qed.

Example pretty_plain_case : plain_names [maximum; column; root].
Proof.
  intros m f Hm Hf t. simpl in Hm. destruct Hm as [<-|[<-|[<-|[]]]]; simpl in Hf; repeat destruct Hf as [<-|Hf]; try contradiction; discriminate.
Qed.

Example pretty_table_case : Forall2 (Forall2 reads) [[Text "ab"; Dec "1" (Text "c")]; [Many [Text "d"; Writer "e"]]]
  [[["a"; "b"]; ["c"]]; [["d"; "e"]]]%char.
Proof.
  constructor; [constructor; [apply (R_text "ab")|constructor; [constructor; apply (R_text "c")|constructor]]|].
  constructor; [|constructor]. constructor; [|constructor].
  apply (R_many (Text "d") [Writer "e"] ["d"]%char ["e"]%char (R_text "d")).
  apply (R_many (Writer "e") [] ["e"]%char [] (R_writer "e")). constructor.
Qed.
