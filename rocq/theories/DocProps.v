(** * Property C20: descriptions taken from Go comments. *)
From Coq Require Import List String Ascii Bool Arith Sorting.Sorted Lia.
From Verif Require Import GoLib GoLibFacts DocModel DocSpec DocProofs.
Import ListNotations.
Open Scope string_scope.
Open Scope list_scope.

(** The description consists of the lines of the comments that are not markers, with blank lines squeezed, in order, and
    only those kept: lines starting with TODO outside code, and all from the first line starting with --- outside code, go. *)
Theorem description_lines cs out texts : Forall comment cs -> without_markers cs out -> Forall2 text_of out texts ->
  exists V is, spaced (List.concat texts) V /\
    let ls := if existsb (has_prefix "/*") out then map trim_space V else V in
    extract_doc (Some cs) = join (String nl "") (map (fun i => nth i ls "") is) /\ StronglySorted lt is /\ forall i, In i is <-> kept ls i.
Proof. exact (doc_main cs out texts). Qed.
Print Assumptions description_lines.

(** Comments always have such texts, and only one each. *)
Theorem description_texts cs : Forall comment cs -> exists out texts, without_markers cs out /\ Forall2 text_of out texts /\
  forall out' texts', without_markers cs out' -> Forall2 text_of out' texts' -> out' = out /\ texts' = texts.
Proof.
  intros H. exists (filter (fun c => negb (is_marker_comment c)) cs), (map comment_lines (filter (fun c => negb (is_marker_comment c)) cs)).
  assert (Ho : Forall comment (filter (fun c => negb (is_marker_comment c)) cs)) by (apply Forall_forall; intros c Hx; apply filter_In in Hx as [Hx _]; rewrite Forall_forall in H; auto).
  repeat split.
  - apply without_filter.
  - exact (texts_exist _ Ho).
  - exact (without_fun _ _ H0).
  - rewrite (without_fun _ _ H0) in H1. exact (texts_fun _ _ _ H1 (texts_exist _ Ho)).
Qed.
Print Assumptions description_texts.

(** No line of a description made of line comments is a marker. *)
Theorem description_no_marker cs l : Forall (fun c => exists b, c = ("//" ++ b)%string /\ has_char nl b = false) cs ->
  In l (split_char nl (extract_doc (Some cs))) -> ~ marker_line l.
Proof. exact (no_marker_in_doc cs l). Qed.
Print Assumptions description_no_marker.

(** Plain prose is kept as it is. *)
Theorem description_prose ls :
  (forall l, In l ls -> l <> "" /\ has_char nl l = false /\ stripped l l /\ ~ marker_line l /\ fence l = false /\ has_prefix "TODO" l = false /\ has_prefix "---" l = false) ->
  extract_doc (Some (map (fun l => "// " ++ l)%string ls)) = join (String nl "") ls.
Proof. exact (doc_plain ls). Qed.
Print Assumptions description_prose.

(** The characters meant. *)
Theorem description_characters a :
  (is_white a = true <-> In (nat_of_ascii a) [9; 10; 13; 32]) /\ (is_space a = true <-> In (nat_of_ascii a) [9; 10; 11; 12; 13; 32]) /\
  (lower_or_digit a = true <-> (48 <= nat_of_ascii a <= 57 \/ 97 <= nat_of_ascii a <= 122)) /\ nat_of_ascii nl = 10.
Proof. unfold is_white, is_space, lower_or_digit. rewrite !orb_true_iff, !andb_true_iff, !Nat.eqb_eq, !Nat.leb_le. cbn [In]. repeat split; try lia; reflexivity. Qed.
Print Assumptions description_characters.

(** ** Concrete cases *)
Definition br := String nl "".
Definition demo_comments := ["// Foo is a thing."; "//"; "//"; "// +kubebuilder:validation:Minimum=1"; "// TODO(x): later"; "//go:generate foo"; "// ```"; "// TODO in code"; "// ```"; "// It is used.  "; "//"; "// ---"; "// internal"].
Example description_demo : extract_doc (Some demo_comments) = join br ["Foo is a thing."; ""; "```"; "TODO in code"; "```"; "It is used."; ""].
Proof. vm_compute. reflexivity. Qed.
Example description_block_demo : extract_doc (Some [("/* Foo" ++ br ++ "   bar  " ++ br ++ br ++ br ++ "TODO x */")%string]) = join br ["Foo"; "bar"; ""].
Proof. vm_compute. reflexivity. Qed.
Example description_hypotheses : Forall comment demo_comments /\ Forall (fun c => exists b, c = ("//" ++ b)%string /\ has_char nl b = false) demo_comments.
Proof. split; repeat (constructor; [try left; (eexists; split; [reflexivity|vm_compute; reflexivity])|]); constructor. Qed.
Example description_prose_hypotheses l : In l ["Foo is a thing."; "  It is used."] ->
  l <> "" /\ has_char nl l = false /\ stripped l l /\ ~ marker_line l /\ fence l = false /\ has_prefix "TODO" l = false /\ has_prefix "---" l = false.
Proof.
  assert (M : forall x, is_marker_comment ("//" ++ x) = false -> ~ marker_line x) by (intros x E H; assert (H' : is_marker_comment ("//" ++ x) = true) by (apply marker_iff; exists x; auto); congruence).
  intros [<-|[<-|[]]]; (split; [discriminate|]; split; [reflexivity|]; split; [apply stripped_iff; vm_compute; reflexivity|]; split; [apply M; vm_compute; reflexivity|]; vm_compute; auto).
Qed.

(** What an author may not expect. A line starting with + inside a code block is taken for a marker and dropped. *)
Theorem description_code_block_refuted : exists cs l, Forall comment cs /\ In ("// " ++ l)%string cs /\ In "// ```" (firstn 1 cs) /\ ~ In l (split_char nl (extract_doc (Some cs))).
Proof.
  exists ["// ```"; "// + added: line"; "// ```"], "+ added: line". split; [repeat (constructor; [left; eexists; split; reflexivity|]); constructor|]. split; [vm_compute; auto|]. split; [vm_compute; auto|]. vm_compute. intros [H|[H|[]]]; discriminate.
Qed.
Print Assumptions description_code_block_refuted.
(** Markers in block comments are not recognised and become part of the description. *)
Theorem description_block_marker_refuted : exists cs l, Forall comment cs /\ In l (split_char nl (extract_doc (Some cs))) /\ marker_line l.
Proof.
  exists [("/*" ++ br ++ "Foo" ++ br ++ "+optional" ++ br ++ "*/")%string], "+optional". split; [constructor; [right; exists (br ++ "Foo" ++ br ++ "+optional" ++ br)%string; reflexivity|constructor]|]. split; [vm_compute; auto|]. exists "", "optional". split; [reflexivity|]. intros a x y H. destruct x; discriminate.
Qed.
Print Assumptions description_block_marker_refuted.
(** A code block that is never closed keeps TODO lines and the --- separator. *)
Theorem description_open_fence_refuted : exists cs, Forall comment cs /\ extract_doc (Some cs) = join br ["```"; "TODO: x"; "---"; "internal"].
Proof. exists ["// ```"; "// TODO: x"; "// ---"; "// internal"]. split; [repeat (constructor; [left; eexists; split; reflexivity|]); constructor|vm_compute; reflexivity]. Qed.
Print Assumptions description_open_fence_refuted.

(** The comment of a declaration documents its only type, unless the declaration is parenthesised. *)
Theorem description_of_type doc paren decl : docs_of (DTypeSpec doc paren decl) = doc \/ (doc = None /\ paren = false /\ docs_of (DTypeSpec doc paren decl) = decl).
Proof. destruct doc; [left; reflexivity|]. destruct paren; [left; reflexivity|]. right. auto. Qed.
Print Assumptions description_of_type.
