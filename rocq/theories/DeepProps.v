(** * Generated DeepCopy methods: the theorems (C28, C29) *)

From Coq Require Import String List Bool Arith Permutation Lia.
Import ListNotations.
From Verif Require Import GoLib DeepModel DeepSpec DeepProofs DeepProofs2 DeepProofs3 DeepProofs4.
Open Scope string_scope.
Open Scope nat_scope.
Open Scope list_scope.

Section Claims.
Variable decls : string -> decl.
Variable M : string -> meths.
Variable zero : ty -> val.
Variable ord : list (val * val) -> list (val * val).
Variable man : string -> heap -> val -> option (heap * val).
Hypothesis P : program decls M zero ord man.

(** C28: DeepCopyInto, called on a value that is not nil and with a destination
    outside it, returns (it neither panics nor runs forever), changes nothing but
    the destination, leaves there a value that stands for the same tree and whose
    memory is all new, and the original is as it was. *)
Theorem deep_copy_into_correct k n h a b v t fp vb :
  into_exists M n = true ->
  hread h a = Some v -> v <> VNil -> den decls h (TNamed n) v t fp ->
  ~ In (fst b) (fst a :: fp) -> hread h b = Some vb -> size t < k ->
  exists h', into decls M zero ord man k n a b h = Some h' /\
             changes_only h b h' /\ copy_at decls h (TNamed n) t b h' /\
             hread h' a = Some v /\ den decls h' (TNamed n) v t fp.
Proof.
  intros Hex Hra Hnn Hd Hsep Hrb Hs.
  destruct (into_all decls M zero ord man P k n t Hs h a b v fp vb Hra Hd) as (h' & Hx & Hm); try easy.
  - left. now destruct v.
  - exists h'. split; [easy|]. destruct (made_copy _ _ _ _ _ _ Hm) as (Hc & Hcopy).
    split; [easy|]. split; [easy|]. destruct Hm as (w & fpw & U & _). split.
    + rewrite <- Hra. apply hread_same. eapply upd_other; eauto.
      * eapply hread_loc; eauto.
      * intros X. apply Hsep. now left.
    + eapply den_upd; eauto. intros X. apply Hsep. now right.
Qed.

(** C28: DeepCopy with a pointer receiver gives a pointer to a new copy, and nil for
    nil. *)
Theorem deep_copy_ptr_correct k n h a v t fp :
  into_exists M n = true -> on_ptr M n = Some true ->
  hread h a = Some v -> den decls h (TNamed n) v t fp -> size t < k ->
  exists h' c, deep_copy decls M zero ord man k n (VPtr a) h = Some (h', VPtr c) /\
    grows h h' /\ List.length h <= fst c < List.length h' /\ copy_at decls h (TNamed n) t c h'.
Proof.
  intros Hex Hp Hra Hd Hs.
  destruct (call_ptr decls M zero ord man P k k (into_all decls M zero ord man P k) n h a v t fp Hp Hex Hra Hd Hs)
    as (h' & c & w & fp' & E & Hg & Hc & Hw & Hd' & Hf).
  exists h', c. split; [exact E|]. split; [easy|]. split; [split; [easy|eapply hread_loc; eauto]|].
  exists w, fp'. split; [easy|]. split; [easy|]. intros l Hl. split.
  - rewrite Forall_forall in Hf. now apply Hf.
  - eapply den_bound; eauto.
Qed.

Theorem deep_copy_ptr_nil k n h : on_ptr M n = Some true ->
  deep_copy decls M zero ord man k n VNil h = Some (h, VNil).
Proof.
  unfold on_ptr, deep_copy, call_copy. intros H.
  destruct (m_copy (M n)); [discriminate H|..]; now injection H as ->.
Qed.

(** C28: DeepCopy with a value receiver (named slices and maps) gives a new copy;
    here nil is allowed, and is copied to nil. *)
Theorem deep_copy_val_correct k n h v t fp :
  into_exists M n = true -> on_ptr M n = Some false ->
  den decls h (TNamed n) v t fp -> size t < k ->
  exists h' w fp', deep_copy decls M zero ord man k n v h = Some (h', w) /\
    grows h h' /\ den decls h' (TNamed n) w t fp' /\
    (forall l, In l fp' -> List.length h <= l < List.length h').
Proof.
  intros Hex Hp Hd Hs.
  destruct (call_val decls M zero ord man P k k (into_all decls M zero ord man P k) n h v t fp Hp Hex Hd Hs)
    as (h' & w & fp' & E & Hg & Hd' & Hf).
  exists h', w, fp'. split; [exact E|]. split; [easy|]. split; [easy|]. intros l Hl. split.
  - rewrite Forall_forall in Hf. now apply Hf.
  - eapply den_bound; eauto.
Qed.

End Claims.

Print Assumptions deep_copy_into_correct.
Print Assumptions deep_copy_ptr_correct.
Print Assumptions deep_copy_ptr_nil.
Print Assumptions deep_copy_val_correct.

(** C28: whatever is done later to the cells of one of the two, the other still
    stands for the same tree.  [h1] is the heap before the copy was made, [h2] the
    heap after. *)
Theorem copy_independent decls h1 h2 T T' v t fp w t' fp' :
  den decls h1 T v t fp -> den decls h2 T v t fp ->
  den decls h2 T' w t' fp' -> (forall l, In l fp' -> List.length h1 <= l) ->
  (forall h3, (forall l, ~ In l fp' -> nth_error h3 l = nth_error h2 l) -> den decls h3 T v t fp) /\
  (forall h3, (forall l, ~ In l fp -> nth_error h3 l = nth_error h2 l) -> den decls h3 T' w t' fp').
Proof.
  intros Hd1 Hd2 Hw Hf.
  assert (Hdis : forall l, In l fp -> ~ In l fp').
  { intros l H1 H2. apply Hf in H2. apply (den_bound _ _ _ _ _ _ Hd1) in H1. lia. }
  split; intros h3 H3.
  - eapply den_same; [exact Hd2|]. intros l Hl. apply H3. now apply Hdis.
  - eapply den_same; [exact Hw|]. intros l Hl. apply H3. intros X. now apply (Hdis l).
Qed.
Print Assumptions copy_independent.

(** C29: a value of a type that is copied by assignment reaches no memory at all, so
    that it stands for the same tree in every heap. *)
Theorem shallow_copy_is_deep decls k T h v t fp :
  (forall n m, d_under (decls n) <> TNamed m) ->
  shallow decls k T = Some true -> den decls h T v t fp ->
  fp = [] /\ forall h', den decls h' T v t [].
Proof.
  intros Hu Hs Hd. apply shallow_flat in Hs. cbn in Hs.
  assert (fp = []) as -> by (eapply flat_den; eauto).
  split; [easy|]. intros h'. eapply den_same; [exact Hd|]. now intros l [].
Qed.
Print Assumptions shallow_copy_is_deep.

(** Shallow copying is refused only for types whose values can hold a reference. *)
Theorem shallow_refused decls k T : shallow decls k T = Some false -> ~ flat decls T.
Proof. exact (shallow_flat decls k T false). Qed.
Print Assumptions shallow_refused.

(** ** A program the theorems apply to *)

(** type Node struct { Name string; Next *Node; Kids []Node; Tags Tags; M map[string]Node; T Time; PT *Time }
    type Tags []string
    with a manual DeepCopyInto on *Time. *)
Definition str : ty := TBasic false "string".
Definition node_ty : ty :=
  TStruct [str; TPtr (TNamed "Node"); TSlice (TNamed "Node"); TNamed "Tags";
           TMap str (TNamed "Node"); TNamed "Time"; TPtr (TNamed "Time")].
Definition ex_decls (n : string) : decl :=
  if String.eqb n "Node" then mkdecl node_ty None false
  else if String.eqb n "Tags" then mkdecl (TSlice str) None false
  else if String.eqb n "Time" then mkdecl (TBasic false "int64") None true
  else mkdecl (TBasic false "int") None false.
Definition ex_meths (n : string) : meths :=
  if String.eqb n "Node" || String.eqb n "Tags" || String.eqb n "Time" then
    match gen_methods ex_decls 10 n with Some (m, _) => m | None => mkmeths NoCopy NoInto end
  else mkmeths NoCopy NoInto.
Definition ex_zero (t : ty) : val :=
  if by_ref (under ex_decls t) then VNil
  else match t with
       | TNamed n => if String.eqb n "Node" then VAgg [VBas ""; VNil; VNil; VNil; VNil; VBas "0"; VNil]
                     else VBas "0"
       | _ => VBas ""
       end.
Definition ex_man (n : string) (h : heap) (v : val) : option (heap * val) := Some (h, v).

Lemma ex_known n : n = "Node" \/ n = "Tags" \/ n = "Time" \/
  (ex_decls n = mkdecl (TBasic false "int") None false /\ ex_meths n = mkmeths NoCopy NoInto).
Proof.
  unfold ex_meths, ex_decls. destruct (String.eqb n "Node") eqn:E1; [apply String.eqb_eq in E1; now left|].
  destruct (String.eqb n "Tags") eqn:E2; [apply String.eqb_eq in E2; right; now left|].
  destruct (String.eqb n "Time") eqn:E3; [apply String.eqb_eq in E3; right; right; now left|].
  right. right. now right.
Qed.

Ltac ex_cases n := destruct (ex_known n) as [->|[->|[->|(?D & ?D')]]].

Example ex_program : program ex_decls ex_meths ex_zero (@rev _) ex_man.
Proof.
  constructor.
  - intros n m. ex_cases n; [discriminate..|]. now rewrite D.
  - intros n e. ex_cases n; [discriminate..|]. now rewrite D.
  - intros n e. ex_cases n; [discriminate..|]. now rewrite D.
  - intros n. ex_cases n; [| | |now rewrite D].
    + cbn. repeat split; try (now intros (? & ?)); try discriminate; easy.
    + cbn. repeat split; try (now intros (? & ?)); discriminate.
    + cbn. exact I.
  - intros n. ex_cases n.
    + right. now exists 10.
    + right. now exists 10.
    + right. now exists 10.
    + left. unfold given. rewrite D'. split; now left.
  - intros n. ex_cases n; [now split..|]. unfold needs_methods. rewrite D. intros [X|[X|((? & X) & _)]]; try discriminate X.
    now destruct X.
  - intros n H. assert (n = "Time") as ->.
    { ex_cases n; [| |reflexivity|].
      - destruct H as [(p & H)|H]; vm_compute in H; discriminate H.
      - destruct H as [(p & H)|H]; vm_compute in H; discriminate H.
      - rewrite D' in H. destruct H as [(p & H)|H]; discriminate H. }
    intros h v t fp Hd. exists h, v, fp. split; [easy|]. split; [apply grows_refl|]. split; [easy|].
    assert (fp = []) as ->; [|now intros l []].
    eapply (flat_den ex_decls); [| |exact Hd].
    + intros n m. ex_cases n; [discriminate..|]. now rewrite D.
    + apply flat_named. apply flat_basic.
  - intros t H. unfold ex_zero. now rewrite H.
  - intros kvs. symmetry. apply Permutation_rev.
Qed.

(** A Node with a child in each place, and the copy made of it. *)
Definition leaf (s : string) : val := VAgg [VBas s; VNil; VNil; VNil; VNil; VBas "7"; VNil].
Definition ex_heap : heap :=
  [ VAgg [VBas "root"; VPtr (1, []); VSlice (2, []) 1 1; VSlice (3, []) 0 2; VMapRef 4; VBas "1"; VPtr (5, [])];
    leaf "next";
    VAgg [leaf "unused"; leaf "kid"];
    VAgg [VBas "a"; VBas "b"];
    VMapData [(VBas "k1", leaf "m1"); (VBas "k2", leaf "m2")];
    VBas "9";
    leaf "" ].
Definition rleaf (s : string) : tree := RStruct [RBas s; RNil; RNil; RNil; RNil; RBas "7"; RNil].
Definition ex_tree : tree :=
  RStruct [RBas "root"; RPtr (rleaf "next"); RSlice [rleaf "kid"]; RSlice [RBas "a"; RBas "b"];
           RMap [VBas "k1"; VBas "k2"] [rleaf "m1"; rleaf "m2"]; RBas "1"; RPtr (RBas "9")].

Ltac den_basic := constructor; eexists; reflexivity.
Ltac den_leaf := apply (den_struct ex_decls ex_heap (TNamed "Node") [str; TPtr (TNamed "Node"); TSlice (TNamed "Node"); TNamed "Tags";
           TMap str (TNamed "Node"); TNamed "Time"; TPtr (TNamed "Time")]); [reflexivity|];
  apply (dens_cons ex_decls ex_heap _ _ _ _ _ _ [] []); [den_basic|];
  do 4 (apply (dens_cons ex_decls ex_heap _ _ _ _ _ _ [] []); [now constructor|]);
  apply (dens_cons ex_decls ex_heap _ _ _ _ _ _ [] []); [den_basic|];
  apply (dens_cons ex_decls ex_heap _ _ _ _ _ _ [] []); [now constructor|constructor].

Lemma ex_leaf s : den ex_decls ex_heap (TNamed "Node") (leaf s) (rleaf s) [].
Proof. den_leaf. Qed.

Example ex_value : exists v,
  hread ex_heap (0, []) = Some v /\ v <> VNil /\
  den ex_decls ex_heap (TNamed "Node") v ex_tree [1; 2; 3; 4; 5] /\
  ~ In 6 (0 :: [1; 2; 3; 4; 5]) /\ size ex_tree < 60.
Proof.
  eexists. split; [reflexivity|]. split; [discriminate|].
  split; [|split; [cbn; intuition discriminate|vm_compute; repeat constructor]].
  eapply den_struct; [reflexivity|].
  apply (dens_cons _ _ _ _ _ _ _ _ [] [1; 2; 3; 4; 5]); [den_basic|].
  apply (dens_cons _ _ _ _ _ _ _ _ [1] [2; 3; 4; 5]).
  { apply (den_ptr ex_decls ex_heap _ (TNamed "Node") (1, []) (leaf "next")); [reflexivity..|apply ex_leaf]. }
  apply (dens_cons _ _ _ _ _ _ _ _ [2] [3; 4; 5]).
  { apply (den_slice ex_decls ex_heap _ (TNamed "Node") (2, []) 1 1 [leaf "unused"; leaf "kid"] _ []); [reflexivity..|cbn; lia|].
    apply (dens_cons _ _ _ _ _ _ _ _ [] []); [apply ex_leaf|constructor]. }
  apply (dens_cons _ _ _ _ _ _ _ _ [3] [4; 5]).
  { apply (den_slice ex_decls ex_heap _ str (3, []) 0 2 [VBas "a"; VBas "b"] _ []); [reflexivity..|cbn; lia|].
    apply (dens_cons _ _ _ _ _ _ _ _ [] []); [den_basic|].
    apply (dens_cons _ _ _ _ _ _ _ _ [] []); [den_basic|constructor]. }
  apply (dens_cons _ _ _ _ _ _ _ _ [4] [5]).
  { apply (den_map ex_decls ex_heap _ str (TNamed "Node") 4 [(VBas "k1", leaf "m1"); (VBas "k2", leaf "m2")]
             [(VBas "k1", leaf "m1"); (VBas "k2", leaf "m2")] [RBas "k1"; RBas "k2"] _ []); [reflexivity..| |easy| |].
    - repeat constructor; cbn; intuition discriminate.
    - apply (dens_cons _ _ _ _ _ _ _ _ [] []); [den_basic|].
      apply (dens_cons _ _ _ _ _ _ _ _ [] []); [den_basic|constructor].
    - apply (dens_cons _ _ _ _ _ _ _ _ [] []); [apply ex_leaf|].
      apply (dens_cons _ _ _ _ _ _ _ _ [] []); [apply ex_leaf|constructor]. }
  apply (dens_cons _ _ _ _ _ _ _ _ [] [5]); [den_basic|].
  apply (dens_cons _ _ _ _ _ _ _ _ [5] []); [|constructor].
  apply (den_ptr ex_decls ex_heap _ (TNamed "Time") (5, []) (VBas "9")); [reflexivity..|den_basic].
Qed.

Example ex_run : exists h',
  into ex_decls ex_meths ex_zero (@rev _) ex_man 10 "Node" (0, []) (6, []) ex_heap = Some h' /\
  nth_error h' 1 = nth_error ex_heap 1 /\ List.length h' > List.length ex_heap.
Proof. eexists. split; [vm_compute; reflexivity|]. split; [reflexivity|]. cbn. lia. Qed.
