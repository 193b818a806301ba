(** * C67: what the object generator writes is Go that says what the model says *)
From Coq Require Import String Ascii List Bool Arith Lia Permutation.
Import ListNotations.
From Verif Require Import GoLib GoLibFacts MapFacts DeepModel DeepSpec ImportModel ImportSpec ImportProofs ObjectModel ObjectSpec ObjectProofs ObjectFile CopiesModel.
From Verif Require Import TextSpec TextModel TextProofs TextProofs2 TextProofs3 TextProofs4 TextProofs5 TextProofs6.
From Verif Require ObjectProps.
Open Scope string_scope.
Open Scope nat_scope.
Open Scope list_scope.

(** A text is read in one way only. *)
Theorem text_unique text f f' : reads text f -> reads text f' -> f = f'.
Proof.
  intros (ts & T & k & H) (ts' & T' & k' & H'). rewrite T in T'. injection T' as <-. specialize (H (k + k') ltac:(lia)). specialize (H' (k + k') ltac:(lia)). congruence.
Qed.
Print Assumptions text_unique.

Section Claims.
Variable decls : string -> decl.
Variable qualifier : string -> option string.
Variable bare : string -> string.
Variable field_name : string -> nat -> string.
Variable string_of : ty -> string.
Variable word_text : word -> string.
Variable steps : nat.
(** Names are identifiers: of types, of the packages they are in, of fields *)
Hypothesis bare_ident : forall n, identifier (bare n) = true.
Hypothesis qual_ident : forall n a, qualifier n = Some a -> identifier a = true.
Hypothesis field_ident : forall n i, identifier (field_name n i) = true.
Hypothesis fine : forall n, basics_fine (d_under (decls n)).

(** The methods of one type *)
Lemma methods_write N m es (o : option word) : identifier N = true -> gen_methods decls steps N = Some (m, es) -> ~ In EName es ->
  (forall a, o = Some a -> identifier (word_text a) = true) ->
  exists ls, methods_text decls qualifier bare field_name string_of steps N (option_map word_text o) = Some ls /\
    writes ls (method_trees qualifier bare field_name word_text N
      (mkWritten (match m_into m with IntoGen p b => Some (p, b) | _ => None end) (match m_copy m with CopyGen p => Some p | _ => None end)
                 (match m_copy m, o with CopyGen p, Some a => Some (p, a) | _, _ => None end))).
Proof using bare_ident qual_ident field_ident fine.
  intros IN E NE Ia. assert (C := gen_methods_copy _ _ _ _ _ E).
  assert (Into : exists l1, (if d_into (decls N) then no_line else into_text decls qualifier bare field_name string_of steps N) = Some l1 /\
     writes l1 (match (match m_into m with IntoGen p b => Some (p, b) | _ => None end) with Some (p, b) => [into_tree qualifier bare field_name N p b] | None => [] end)).
  { clear C. unfold gen_methods in E. destruct (d_into (decls N)).
    - injection E as <- <-. exists []. split; [reflexivity|apply wt_nil].
    - assert (W : forall b ss es0, agrees qualifier bare field_name N b (Some (ss, es0)) -> Forall nameable (flat_map stmt_types ss) ->
          exists l1, into_lines N (ptr_receiver decls (TNamed N)) b = Some l1 /\ writes l1 [into_tree qualifier bare field_name N (ptr_receiver decls (TNamed N)) ss]).
      { intros b ss es0 A F. destruct (into_writes qualifier bare field_name N IN (ptr_receiver decls (TNamed N)) b ss es0 A) as (l1 & E1 & W1). exists l1. auto. }
      unfold into_text. fold (into_lines N (ptr_receiver decls (TNamed N)) (match d_copy (decls N) with
          | Some true => and (line "clone := in.DeepCopy()") (line "*out = *clone")
          | Some false => line "*out = in.DeepCopy()"
          | None => block_text decls qualifier bare field_name string_of N steps (TNamed N)
          end)).
      destruct (d_copy (decls N)) as [[|]|].
      + injection E as <- <-. cbn [m_into]. apply (W _ _ []); [|constructor].
        eapply ag_two with (T := [TId "clone"] ++ TOp ":=" :: [TId "in"; TOp "."; TId "DeepCopy"; TOp "("; TOp ")"]) (T' := [TOp "*"; TId "out"] ++ TOp "=" :: [TOp "*"; TId "clone"]); [intros ts; reflexivity| |intros ts; reflexivity|].
        * apply (g_set1 true); [reflexivity|apply e_id; reflexivity|]. apply o_expr, (o_copy [TId "in"]), o_id. reflexivity.
        * apply (g_set1 false); [reflexivity|apply e_star, e_id; reflexivity|apply e_star, e_id; reflexivity].
      + injection E as <- <-. cbn [m_into]. apply (W _ _ []); [|constructor].
        eapply ag_lit with (T := [TOp "*"; TId "out"] ++ TOp "=" :: [TId "in"; TOp "."; TId "DeepCopy"; TOp "("; TOp ")"]); [intros ts; reflexivity|].
        apply (g_set1 false); [reflexivity|apply e_star, e_id; reflexivity|]. apply o_expr, (o_copy [TId "in"]), o_id. reflexivity.
      + destruct (gen_block decls steps (TNamed N)) as [[b es0]|] eqn:B; [|discriminate]. injection E as <- <-. cbn [m_into]. apply (W _ _ es0).
        * rewrite <- B. apply ag_block; auto.
        * assert (G := gd_block decls fine steps (TNamed N) I). rewrite B in G. destruct G as [G|G]; [contradiction|exact G]. }
  destruct Into as (l1 & E1 & W1). unfold methods_text. rewrite E1. unfold method_trees. cbn [w_into w_copy w_object]. rewrite C. destruct (d_copy (decls N)) as [p|].
  - exists (l1 ++ []). split; [reflexivity|]. cbn [app]. apply wt_app; [exact W1|apply wt_nil].
  - eexists. split; [reflexivity|]. apply wt_app; [exact W1|]. apply wt_app; [now apply copy_writes|]. destruct o as [a|]; [|apply wt_nil]. cbn [option_map]. apply object_writes; [exact IN|now apply Ia].
Qed.

Variable exported : string -> bool.
Variable home : string -> place.
Variable letter digit : nat -> bool.
Variable rounds : nat.
Variable torder : list (string * written) -> list (string * written).
Variable porder : list (word * word) -> list (word * word).
Variable name_of : word -> option word.
Variable formats : file -> bool.
Variable root : word.
Variable pkg : mvals.
Variable is : list info.
Hypothesis torder_perm : forall l, Permutation (torder l) l.
Hypothesis Tp : typed pkg.
Hypothesis N : NoDup (map i_name is).
Variable f : file.
Variable errs : list gerr.
Hypothesis Hrun : generate_for_package decls exported home letter digit steps rounds torder porder name_of formats root (Some pkg) (Some is) = Done (Some f, errs).

(** Of a package for which a file is written, without the error that a type has no name: if the header is comments, the package, the types and the
    aliases are called by identifiers, and the paths need no escapes, then the text is a Go file, with the imports and the methods of the model, and
    with bodies that are the statements of the model, no more and no less. *)
Theorem text_file header package : comments header -> identifier package = true ->
  (forall n m, In (n, m) (f_methods f) -> identifier n = true) ->
  (forall n m p a, In (n, m) (f_methods f) -> w_object m = Some (p, a) -> identifier (word_text a) = true) ->
  (forall a p, In (a, p) (f_imports f) -> spec_fine (option_map word_text a, word_text p)) ->
  (forall n, ~ In (EGen n EName) errs) ->
  exists text, file_source decls qualifier bare field_name string_of word_text steps header package f = Some text /\
    reads text (file_tree qualifier bare field_name word_text package f).
Proof using bare_ident qual_ident field_ident fine torder_perm Tp N Hrun.
  intros Hh Hp In_ Ia Ii Ne. destruct (result_inv decls exported home letter digit steps rounds torder porder name_of formats root pkg is Tp N _ _ Hrun) as (all & types & l & r & A & T & Nd & Gm & P & O & Ty & Fi & Fm & e & Er & _).
  assert (Each : forall n m, In (n, m) (f_methods f) -> exists ls, methods_text decls qualifier bare field_name string_of steps n (option_map (fun o => word_text (snd o)) (w_object m)) = Some ls /\
     writes ls (method_trees qualifier bare field_name word_text n m)).
  { intros n m H. assert (H' := H). rewrite Fm in H'. apply (write_in torder torder_perm _ _ _ Nd) in H'. assert (X : In (n, code_of m) (by_code types)) by (apply in_map_iff; now exists (n, m)).
    rewrite T in X. apply in_flat_map in X as (i & Hi & X). apply entry_in in X as (-> & D & gm & ds & E & Cm & _).
    assert (NE : ~ In EName ds).
    { intros Hd. apply (Ne (i_name i)). rewrite Er. apply in_or_app. left. apply in_flat_map. exists i. split; [exact Hi|]. unfold errs_of. unfold dueb in D.
      destruct (enabled_on_type all (i_marks i)) as [[|]| |]; try discriminate. rewrite D. cbn [gen_methods]. rewrite E. now apply in_map. }
    destruct m as [wi wc wo]. unfold code_of, made_code in Cm. cbn [w_into w_copy w_object] in Cm. injection Cm as C1 C2 C3.
    destruct (methods_write (i_name i) gm ds (option_map snd wo) (In_ _ _ H) E NE) as (ls & L & W).
    - intros a Ea. destruct wo as [[p b]|]; [|discriminate]. injection Ea as <-. exact (Ia _ _ p b H eq_refl).
    - exists ls. cbn [w_object]. split; [destruct wo as [[p b]|]; exact L|]. replace (mkWritten wi wc wo) with
       (mkWritten (match m_into gm with IntoGen p b => Some (p, b) | _ => None end) (match m_copy gm with CopyGen p => Some p | _ => None end) (match m_copy gm, option_map snd wo with CopyGen p, Some a => Some (p, a) | _, _ => None end)); [exact W|].
      rewrite C1, C2. f_equal. destruct wo as [[p b]|]; cbn [option_map snd fst] in *; destruct (m_copy gm) as [|q|q]; try discriminate; try reflexivity. destruct (is_object i); [|discriminate]. now injection C3 as ->. }
  assert (Lines : exists mss, all_lines (map (fun nm => methods_text decls qualifier bare field_name string_of steps (fst nm) (option_map (fun o => word_text (snd o)) (w_object (snd nm)))) (f_methods f)) = Some mss /\
     Forall2 writes mss (map (fun nm => method_trees qualifier bare field_name word_text (fst nm) (snd nm)) (f_methods f))).
  { clear - Each. induction (f_methods f) as [|[n m] ms IH]; [exists []; split; [reflexivity|constructor]|]. destruct IH as (mss & E & W); [intros; apply Each; now right|]. destruct (Each n m (or_introl eq_refl)) as (ls & El & Wl).
    exists (ls :: mss). cbn [map all_lines fst snd]. rewrite El, E. split; [reflexivity|]. now constructor. }
  destruct Lines as (mss & E & W). unfold file_source. rewrite E. eexists. split; [reflexivity|]. unfold file_tree. rewrite flat_map_concat_map. apply file_reads; auto.
  apply Forall_forall. intros x Hx. apply in_map_iff in Hx as ([a p] & <- & Hx). now apply Ii.
Qed.
End Claims.
Print Assumptions text_file.

Lemma find_snd (l : list (option word * word)) p : In p (map snd l) -> exists s, find (fun i => word_eqb (snd i) p) l = Some s /\ In s l /\ snd s = p.
Proof.
  intros H. destruct (find (fun i => word_eqb (snd i) p) l) as [s|] eqn:E.
  - apply find_some in E as (Hs & E). apply word_eqb_eq in E. now exists s.
  - apply in_map_iff in H as (s & Es & Hs). apply (find_none _ _ E) in Hs. rewrite Es in Hs. assert (X : word_eqb p p = true) by now apply word_eqb_eq. congruence.
Qed.
Section Qualified.
Variable decls : string -> decl.
Variable bare : string -> string.
Variable field_name : string -> nat -> string.
Variable string_of : ty -> string.
Variable word_text : word -> string.
Variable steps : nat.
Hypothesis bare_ident : forall n, identifier (bare n) = true.
Hypothesis field_ident : forall n i, identifier (field_name n i) = true.
Hypothesis fine : forall n, basics_fine (d_under (decls n)).
Variable exported : string -> bool.
Variable home : string -> place.
Variable letter digit : nat -> bool.
Variable rounds : nat.
Variable torder : list (string * written) -> list (string * written).
Variable porder : list (word * word) -> list (word * word).
Variable name_of : word -> option word.
Variable formats : file -> bool.
Variable root : word.
Variable pkg : mvals.
Variable is : list info.
Hypothesis torder_perm : forall l, Permutation (torder l) l.
Hypothesis porder_perm : forall l, Permutation l (porder l).
Hypothesis Tp : typed pkg.
Hypothesis N : NoDup (map i_name is).
Variable f : file.
Variable errs : list gerr.
Hypothesis Hrun : generate_for_package decls exported home letter digit steps rounds torder porder name_of formats root (Some pkg) (Some is) = Done (Some f, errs).

(** With the aliases that the file itself gives to the packages: a type of another package is called by the alias of an import of that package, and
    the alias of runtime.Object's package is one of an import. *)
Theorem text_imports header package : comments header -> identifier package = true ->
  (forall n m, In (n, m) (f_methods f) -> identifier n = true) ->
  (forall a p, In (a, p) (f_imports f) -> all_chars path_char (word_text p) = true) ->
  (forall s a, In s (f_imports f) -> bound_name name_of s = Some a -> identifier (word_text a) = true) ->
  (forall n p, home n = Foreign p -> ~ means p []) ->
  (forall n, ~ In (EGen n EName) errs) ->
  (exists text, file_source decls (qualifier_in home name_of word_text f) bare field_name string_of word_text steps header package f = Some text /\
    reads text (file_tree (qualifier_in home name_of word_text f) bare field_name word_text package f)) /\
  (forall n m p b x path, In (n, m) (f_methods f) -> w_into m = Some (p, b) -> In x (body_names b) -> home x = Foreign path ->
    exists s a, In s (f_imports f) /\ means path (snd s) /\ bound_name name_of s = Some a /\ qualifier_in home name_of word_text f x = Some (word_text a)).
Proof using bare_ident field_ident fine torder_perm porder_perm Tp N Hrun.
  intros Hh Hp In_ Ipath Ibound Home Ne.
  destruct (ObjectProps.imports_exact decls exported home letter digit steps rounds torder porder name_of formats root pkg is torder_perm porder_perm Tp N (Some f) errs Hrun f eq_refl Home) as (Ex & _ & _ & Ob).
  assert (Bound : forall s, In s (f_imports f) -> bound_name name_of s <> None).
  { destruct (result_inv decls exported home letter digit steps rounds torder porder name_of formats root pkg is Tp N _ _ Hrun) as (all & types & l & r & _ & _ & _ & _ & _ & _ & _ & Fi & _). rewrite Fi. intros s Hs. apply in_map_iff in Hs as ([p a] & <- & _). cbn [fst snd].
    destruct (name_of p) as [x|] eqn:E; [|discriminate]. destruct (word_eqb x a); [cbn; congruence|discriminate]. }
  split.
  - apply (text_file decls _ bare field_name string_of word_text steps bare_ident) with (exported := exported) (home := home) (letter := letter) (digit := digit) (rounds := rounds) (torder := torder) (porder := porder) (name_of := name_of) (formats := formats) (root := root) (pkg := pkg) (is := is) (errs := errs); auto.
    + intros n a. unfold qualifier_in. destruct (home n) as [|p|]; try discriminate. destruct (find _ (f_imports f)) as [[[b|] q]|] eqn:E; try discriminate; apply find_some in E as (Hs & _).
      * intros [= <-]. now apply (Ibound _ b Hs).
      * destruct (name_of q) as [b|] eqn:En; [|discriminate]. intros [= <-]. now apply (Ibound _ b Hs).
    + intros n m p a Hm Ew. destruct (Ob n m p a Hm Ew) as (s & Hs & _ & Bs). exact (Ibound s a Hs Bs).
    + intros a p Hi. split; [exact (Ipath a p Hi)|]. intros x Ex'. destruct a as [b|]; [|discriminate]. injection Ex' as <-. now apply (Ibound _ b Hi).
  - intros n m p b x path Hm Ew Hx Hx'.
    assert (U : In (no_vendor path) (map snd (f_imports f))) by (apply Ex; exists n, m; split; [exact Hm|]; left; exists p, b, x, path; split; [exact Ew|]; split; [now apply body_names_iff|]; split; [exact Hx'|now apply means_fun]).
    destruct (find_snd _ _ U) as (s & F & Hs & Es). destruct (bound_name name_of s) as [a|] eqn:Bs; [|now apply Bound in Bs]. exists s, a. split; [exact Hs|]. split; [now apply means_fun|]. split; [exact Bs|].
    unfold qualifier_in. rewrite Hx', F. destruct s as [[c|] q]; cbn in Bs; [now injection Bs as <-|now rewrite Bs].
Qed.
End Qualified.
Print Assumptions text_imports.

(** ** Cases *)

Definition spell (x : word) : string := string_of_list_ascii (map ascii_of_nat x).
Definition tx_fields (n : string) (i : nat) : string := match i with 0 => "Items" | 1 => "Names" | _ => "Next" end.
Definition tx_item (path : string) (n : string) : place := if String.eqb n "Item" then Foreign (w path) else Local.
Definition tx_bare (n : string) : string := if String.eqb n "Item" then "Item" else "List".
(** type List struct { Items []Item; Names map[string][]string; Next *List }, with Item from another package *)
Definition tx_decls : string -> decl :=
  ObjectProps.one_decl "List" (mkdecl (TStruct [TSlice (TNamed "Item"); TMap (TBasic false "string") (TSlice (TBasic false "string")); TPtr (TNamed "List")]) None false)
    (ObjectProps.one_decl "Item" (mkdecl (TStruct [TBasic false "int"]) None false) ObjectProps.no_decls).
Definition tx_infos : list info := [mkInfo "List" [(root_name, [VBool true])] Defined].
Definition tx_result (path : string) : run (option file * list gerr) := ObjectProps.gen_all tx_decls (tx_item path) tx_infos.
Definition tx_file (path : string) : file := match tx_result path with Done (Some f, _) => f | _ => mkFile [] [] end.
Definition tx_text (path : string) : option string :=
  file_source tx_decls (qualifier_in (tx_item path) ObjectProps.ex_names spell (tx_file path)) tx_bare tx_fields (fun _ => "?") spell 20 "/* Licensed. */" "v1" (tx_file path).

Example tx_run : tx_result "example.com/items/v1" = Done (Some (tx_file "example.com/items/v1"), []).
Proof. now vm_compute. Qed.
Example tx_fine : forall n, basics_fine (d_under (tx_decls n)).
Proof.
  intros n. unfold tx_decls, ObjectProps.one_decl. destruct (String.eqb n "List"); [cbn; intuition|]. destruct (String.eqb n "Item"); cbn; auto.
Qed.
Example tx_comments : comments "/* Licensed. */".
Proof.
  apply (co_block " Licensed. " ""); [|constructor]. intros a b H. assert (X : forall s, In "*"%char (list_ascii_of_string (s ++ "*/" ++ b))) by (induction s as [|c s IH]; [now left|now right]).
  specialize (X a). rewrite <- H in X. cbn in X. intuition discriminate.
Qed.
(** The hypotheses of the theorem hold, and what it says of this file *)
Example tx_reads : exists text, tx_text "example.com/items/v1" = Some text /\
  reads text (file_tree (qualifier_in (tx_item "example.com/items/v1") ObjectProps.ex_names spell (tx_file "example.com/items/v1")) tx_bare tx_fields spell "v1" (tx_file "example.com/items/v1")).
Proof.
  refine (proj1 (text_imports tx_decls tx_bare tx_fields (fun _ => "?") spell 20 _ _ tx_fine ObjectProps.ex_exported (tx_item "example.com/items/v1") ObjectProps.ascii_letter ObjectProps.ascii_digit 100 (fun l => l) (fun l => l)
    ObjectProps.ex_names ObjectProps.ex_formats (w "v1") ObjectProps.ex_pkg tx_infos (fun l => Permutation_refl l) (fun l => Permutation_refl l) (proj1 ObjectProps.ex_typed) _ _ [] tx_run "/* Licensed. */" "v1" tx_comments eq_refl _ _ _ _ _)).
  - intros n. unfold tx_bare. now destruct (String.eqb n "Item").
  - intros n [|[|i]]; reflexivity.
  - repeat constructor. intros [].
  - assert (X : forallb (fun nm => identifier (fst nm)) (f_methods (tx_file "example.com/items/v1")) = true) by (vm_compute; reflexivity). rewrite forallb_forall in X. intros n m H. exact (X (n, m) H).
  - assert (X : forallb (fun i => all_chars path_char (spell (snd i))) (f_imports (tx_file "example.com/items/v1")) = true) by (vm_compute; reflexivity). rewrite forallb_forall in X. intros a p H. exact (X (a, p) H).
  - assert (X : forallb (fun i => match bound_name ObjectProps.ex_names i with Some a => identifier (spell a) | None => true end) (f_imports (tx_file "example.com/items/v1")) = true) by (vm_compute; reflexivity).
    rewrite forallb_forall in X. intros s a H E. specialize (X s H). now rewrite E in X.
  - intros n p. unfold tx_item. destruct (String.eqb n "Item"); [|discriminate]. intros [= <-] M. apply means_fun in M. vm_compute in M. discriminate.
  - intros n [].
Qed.
(** The text itself *)
Example tx_written : tx_text "example.com/items/v1" = Some
"//go:build !ignore_autogenerated

/* Licensed. */

// Code generated by controller-gen. DO NOT EDIT.

package v1

import (
itemsv1 ""example.com/items/v1""
runtime ""k8s.io/apimachinery/pkg/runtime""
)

// DeepCopyInto is an autogenerated deepcopy function, copying the receiver, writing into out. in must be non-nil.
func (in *List) DeepCopyInto(out *List) {
*out = *in
if in.Items != nil {
in, out := &in.Items, &out.Items
*out = make([]itemsv1.Item, len(*in))
copy(*out, *in)
}
if in.Names != nil {
in, out := &in.Names, &out.Names
*out = make(map[string][]string, len(*in))
for key, val := range *in {
var outVal []string
if val == nil {
(*out)[key] = nil
} else {
inVal := (*in)[key]
in, out := &inVal, &outVal
*out = make([]string, len(*in))
copy(*out, *in)
}
(*out)[key] = outVal
}
}
if in.Next != nil {
in, out := &in.Next, &out.Next
*out = new(List)
(*in).DeepCopyInto(*out)
}
}

// DeepCopy is an autogenerated deepcopy function, copying the receiver, creating a new List.
func (in *List) DeepCopy() *List {
	if in == nil { return nil }
	out := new(List)
	in.DeepCopyInto(out)
	return out
}


// DeepCopyObject is an autogenerated deepcopy function, copying the receiver, creating a new runtime.Object.
func (in *List) DeepCopyObject() runtime.Object {
	if c := in.DeepCopy(); c != nil {
		return c
	}
	return nil
}

".
Proof. now vm_compute. Qed.

(** ** Where it goes wrong *)

(** An alias may be a keyword of Go: it is the last part of the path, as of github.com/json-iterator/go. Then the text is not Go, though everything
    else is as text_imports has it, and there is no error of the generator's own. *)
Theorem text_keyword_refuted :
  ~ (forall path, all_chars (fun c => is_letter c || is_digit c || existsb (Ascii.eqb c) ["."; "-"; "/"]%char) path = true -> path <> "" ->
     exists f text tree, tx_result path = Done (Some f, []) /\ tx_text path = Some text /\ reads text tree).
Proof.
  intros H. destruct (H "github.com/json-iterator/go" eq_refl ltac:(discriminate)) as (f & text & tree & _ & T & ts & L & k & P).
  vm_compute in T. injection T as <-. vm_compute in L. injection L as <-. specialize (P k (le_n k)). vm_compute in P. discriminate.
Qed.
Print Assumptions text_keyword_refuted.
(** It is the alias go, and there is no error. *)
Example keyword_alias : tx_result "github.com/json-iterator/go" = Done (Some (tx_file "github.com/json-iterator/go"), []) /\
  In (Some (w "go"), w "github.com/json-iterator/go") (f_imports (tx_file "github.com/json-iterator/go")).
Proof. split; [now vm_compute|]. vm_compute. now left. Qed.
