(** * C46: the object generator writes the methods it is asked for *)

From Coq Require Import String Ascii List Bool Arith Lia Permutation Sorted.
Import ListNotations.
From Verif Require Import GoLib GoLibFacts MapFacts DeepModel DeepSpec DeepTypes DeepTypesProofs DeepEnds DeepProps DeepTypesProps.
From Verif Require Import ImportModel ImportSpec ImportProofs ImportProps ObjectModel ObjectSpec ObjectProofs ObjectFile.
Open Scope string_scope.
Open Scope nat_scope.
Open Scope list_scope.

Section Claims.
Variable decls : string -> decl.
Variable exported : string -> bool.
Variable home : string -> place.
Variable letter digit : nat -> bool.
Variable steps rounds : nat.
Variable torder : list (string * written) -> list (string * written).
Variable porder : list (word * word) -> list (word * word).
Variable name_of : word -> option word.
Variable formats : file -> bool.
Variable root : word.
Variable pkg : mvals.
Variable is : list info.

Hypothesis torder_perm : forall l, Permutation (torder l) l.
Hypothesis porder_perm : forall l, Permutation l (porder l).
Hypothesis G : go_decls decls.
Hypothesis Tp : typed pkg.
Hypothesis Ti : Forall (fun i => typed (i_marks i)) is.
Hypothesis N : NoDup (map i_name is).

Variable out : option file.
Variable errs : list gerr.
Hypothesis Hrun : generate_for_package decls exported home letter digit steps rounds torder porder name_of formats root
                    (Some pkg) (Some is) = Done (out, errs).
Let R := result_inv decls exported home letter digit steps rounds torder porder name_of formats root pkg is Tp N out errs Hrun.

(** Each type that methods are due for gets those that it does not have: DeepCopyInto and DeepCopy; and DeepCopyObject if it
    is asked for and DeepCopy is not written by hand. *)
Theorem methods_given i : In i is -> due decls exported pkg i -> d_copy (decls (i_name i)) = None \/ d_into (decls (i_name i)) = false ->
  exists m, In (i_name i, m) (methods out) /\ completes decls i m.
Proof.
  intros Hi D Hm. destruct R as (all & types & l & r & A & T & Nd & Gm & P & O & Ho).
  apply (due_iff decls exported pkg is G Ti all i A Hi) in D.
  assert (Gi := Gm i Hi D). destruct (gen_methods decls steps (i_name i)) as [[gm ds]|] eqn:E; [|easy].
  assert (In (i_name i, made_code i gm) (by_code types)).
  { rewrite T. apply in_flat_map. exists i. split; [easy|]. apply entry_in. split; [easy|]. split; [easy|]. exists gm, ds. split; [easy|]. split; [easy|].
    now apply (made_no_code decls steps i gm ds E). }
  apply in_map_iff in H. destruct H as ([n m] & Eq & H). assert (C := f_equal snd Eq). assert (En := f_equal fst Eq). cbn [fst snd] in C, En. subst n. exists m. split.
  - apply (methods_in torder torder_perm out types Nd); [|exact H]. now destruct out.
  - rewrite Forall_forall in Ti. now apply (code_completes decls steps i m gm ds (Ti i Hi) E).
Qed.

(** No other method is written. *)
Theorem methods_only n m : In (n, m) (methods out) ->
  exists i, In i is /\ i_name i = n /\ due decls exported pkg i /\ completes decls i m /\ (d_copy (decls n) = None \/ d_into (decls n) = false).
Proof.
  intros H. destruct R as (all & types & l & r & A & T & Nd & Gm & P & O & Ho).
  apply (methods_in torder torder_perm out types Nd) in H; [|now destruct out].
  assert (X : In (n, code_of m) (by_code types)) by (apply in_map_iff; now exists (n, m)).
  rewrite T in X. apply in_flat_map in X. destruct X as (i & Hi & X). apply entry_in in X. destruct X as (-> & D & gm & ds & E & C & Nc).
  exists i. split; [easy|]. split; [easy|]. split; [now apply (due_iff decls exported pkg is G Ti all i A Hi)|]. split.
  - rewrite Forall_forall in Ti. now apply (code_completes decls steps i m gm ds (Ti i Hi) E).
  - rewrite C in Nc. now apply (made_no_code decls steps i gm ds E) in Nc.
Qed.

(** They are in the order of the names of the types, each once. *)
Theorem methods_sorted : StronglySorted str_le (map fst (methods out)) /\ NoDup (map fst (methods out)).
Proof.
  destruct R as (all & types & l & r & A & T & Nd & Gm & P & O & Ho).
  destruct out as [f|]; [|split; constructor]. cbn [methods]. destruct Ho as (_ & _ & -> & _). rewrite write_names by easy. split.
  - apply sort_strings_sorted.
  - apply (Permutation_NoDup (Permutation_sym (sort_strings_perm _)) Nd).
Qed.

(** There is a file exactly if some type lacks a method that is due. *)
Theorem file_written : out <> None <->
  exists i, In i is /\ due decls exported pkg i /\ (d_copy (decls (i_name i)) = None \/ d_into (decls (i_name i)) = false).
Proof.
  split.
  - intros Ho. destruct (methods out) as [|[n m] l] eqn:E.
    + exfalso. destruct R as (all & types & l & r & A & T & Nd & _ & _ & _ & H). destruct out as [f|]; [|easy]. destruct H as (H1 & _ & H2 & _).
      cbn [methods] in E. rewrite H2 in E. destruct types as [|[n m] types]; [easy|].
      assert (X : In (n, m) (write_methods torder ((n, m) :: types))) by (apply (write_in torder torder_perm); [exact Nd|now left]). rewrite E in X. destruct X.
    + assert (X : In (n, m) (methods out)) by (rewrite E; now left). destruct (methods_only n m X) as (i & Hi & <- & D & _ & M). now exists i.
  - intros (i & Hi & D & M) Ho. destruct (methods_given i Hi D M) as (m & X & _). now rewrite Ho in X.
Qed.

(** The file imports just the packages that its code names, each once, under different names. *)
Theorem imports_exact f : out = Some f -> (forall n p, home n = Foreign p -> ~ means p []) ->
  (forall p, In p (map snd (f_imports f)) <-> exists n m, In (n, m) (f_methods f) /\ uses home m p) /\
  NoDup (map snd (f_imports f)) /\ NoDup (map (bound_name name_of) (f_imports f)) /\
  (forall n m p a, In (n, m) (f_methods f) -> w_object m = Some (p, a) ->
     exists s, In s (f_imports f) /\ snd s = w "k8s.io/apimachinery/pkg/runtime" /\ bound_name name_of s = Some a).
Proof.
  intros Ef Hp. destruct R as (all & types & l & r & A & T & Nd & Gm & P & O & Ho). rewrite Ef in Ho. destruct Ho as (_ & Hi & Hm & _).
  assert (Hps : forall p, In p (entry_paths home (flat_map (entry decls exported steps all) is)) -> ~ means p []).
  { intros p X. apply in_flat_map in X. destruct X as ([n [[into cp] obj]] & _ & X). cbn in X. apply in_app_or in X. destruct X as [X|X].
    - apply in_flat_map in X. destruct X as (k & _ & X). destruct (home k) as [|q|] eqn:Ek; [destruct X| |destruct X].
      destruct X as [->|[]]. now apply (Hp k p).
    - destruct obj; [|destruct X]. destruct X as [<-|[]]. intros M. apply means_fun in M. vm_compute in M. discriminate. }
  destruct (specs_bind_aliases letter digit root rounds _ l r name_of porder P Hps porder_perm) as (S1 & S2 & S3).
  assert (Snd : forall k : list (word * word), map snd (map (fun pa : word * word => match name_of (fst pa) with
                 | Some n => if word_eqb n (snd pa) then (None, fst pa) else (Some (snd pa), fst pa)
                 | None => (Some (snd pa), fst pa) end) k) = map fst k).
  { intros k. rewrite map_map. apply map_ext. intros [p a]. cbn [fst snd]. destruct (name_of p) as [x|]; [|easy]. now destruct (word_eqb x a). }
  rewrite Hi. split; [|split; [exact S1|split; [exact S2|]]].
  - intros p. unfold import_specs. rewrite Snd.
    assert (Q : In p (map fst (porder (by_path l))) <-> In p (map fst (by_path l))) by (split; apply Permutation_in, Permutation_map; [symmetry|]; apply porder_perm).
    rewrite Q, (needs_keys _ _ _ _ _ _ _ P). cbn [no_imports by_path map]. split.
    + intros [(q & Hq & ->)|[]]. apply in_flat_map in Hq. destruct Hq as ([n c] & Hc & Hq). cbn [snd] in Hq. rewrite <- T in Hc.
      apply in_map_iff in Hc. destruct Hc as ([n' m] & [= -> <-] & Hc). exists n, m. split; [rewrite Hm; now apply (write_in torder torder_perm)|].
      unfold paths_of, code_of in Hq. apply in_app_or in Hq. destruct Hq as [Hq|Hq].
      * left. destruct (w_into m) as [[ptr b]|] eqn:Ew; [|destruct Hq]. apply in_flat_map in Hq. destruct Hq as (k & Hk & Hq).
        destruct (home k) as [|q'|] eqn:Ek; [destruct Hq| |destruct Hq]. destruct Hq as [->|[]].
        exists ptr, b, k, q. split; [easy|]. split; [now apply body_names_iff|]. split; [easy|]. now apply means_fun.
      * right. destruct (w_object m) as [x|]; [|destruct Hq]. destruct Hq as [<-|[]]. split; [easy|]. now vm_compute.
    + intros (n & m & Hin & U). left. rewrite Hm in Hin. apply (proj1 (write_in torder torder_perm types n m Nd)) in Hin.
      assert (Hc : In (n, code_of m) (flat_map (entry decls exported steps all) is)) by (rewrite <- T; apply in_map_iff; now exists (n, m)).
      destruct U as [(ptr & b & k & q & Ew & Hk & Ek & M)|(Ew & ->)]; [apply body_names_iff in Hk|].
      * exists q. split; [|now apply means_fun]. apply in_flat_map. exists (n, code_of m). split; [easy|]. cbn [snd]. unfold paths_of, code_of. rewrite Ew.
        apply in_or_app. left. apply in_flat_map. exists k. rewrite Ek. split; [easy|now left].
      * exists runtime_path. split; [|now vm_compute]. apply in_flat_map. exists (n, code_of m). split; [easy|]. cbn [snd]. unfold paths_of, code_of.
        apply in_or_app. right. destruct (w_object m); [now left|easy].
  - intros n m p a Hin Ew. rewrite Hm in Hin. apply (proj1 (write_in torder torder_perm types n m Nd)) in Hin.
    assert (X := O n m p a Hin Ew).
    assert (Hr : In runtime_path (entry_paths home (flat_map (entry decls exported steps all) is))).
    { apply in_flat_map. exists (n, code_of m). split; [rewrite <- T; apply in_map_iff; now exists (n, m)|]. cbn [snd]. unfold paths_of, code_of. rewrite Ew.
      apply in_or_app. right. now left. }
    apply In_nth_error in Hr. destruct Hr as (j & Hj).
    assert (Hne : forall x, In x (entry_paths home (flat_map (entry decls exported steps all) is)) -> no_vendor x <> []).
    { intros x Hx Ex. apply (Hps x Hx). apply means_fun. now symmetry. }
    destruct (needs_inv letter digit root rounds _ _ l r (inv_start root) Hne P) as (_ & _ & Hn & Hl).
    destruct (nth_error r j) as [a'|] eqn:Er.
    2:{ exfalso. apply nth_error_None in Er. assert (j < List.length (entry_paths home (flat_map (entry decls exported steps all) is))) by (apply nth_error_Some; congruence). lia. }
    assert (X' := Hn j _ _ Hj Er). replace (no_vendor runtime_path) with runtime_path in X' by now vm_compute.
    assert (a' = a) as -> by congruence.
    apply (S3 j runtime_path _ a Hj Er). apply means_fun. now vm_compute.
Qed.

(** A type that is not known is reported. *)
Theorem unknown_reported i : In i is -> i_type i = Unknown -> exported (i_name i) = true -> type_asked pkg (i_marks i) -> In (EUnknown (i_name i)) errs.
Proof.
  intros Hi Ht He Ha. destruct R as (all & types & l & r & A & T & Nd & Gm & P & O & Ho).
  assert (X : In (EUnknown (i_name i)) (flat_map (errs_of decls exported steps all) is)).
  { apply in_flat_map. exists i. split; [easy|]. unfold errs_of. rewrite Forall_forall in Ti. destruct (type_run pkg (i_marks i) all (Ti i Hi) A) as (b & -> & Hb).
    apply Hb in Ha. subst b. unfold should_be_copied. rewrite He, Ht. now left. }
  destruct out as [f|]; [|now destruct Ho as (_ & ->)]. destruct Ho as (_ & _ & _ & e & -> & _). apply in_or_app. now left.
Qed.

(** ** What the methods do *)

Section After.
Variable abroad : string -> meths.
Hypothesis no_errs : errs = [].
Hypothesis here : forall i, In i is -> home (i_name i) = Local.
Let M := methods_after decls home abroad out.

Lemma types_get types n : NoDup (map fst types) -> match out with None => types = [] | Some f => f_methods f = write_methods torder types end ->
  match out with Some f => mget String.eqb (f_methods f) n | None => None end = mget String.eqb types n.
Proof.
  intros Nd H. destruct out as [f|]; [|now subst types]. rewrite H.
  assert (Nw : NoDup (map fst (write_methods torder types))) by (rewrite write_names by easy; apply (Permutation_NoDup (Permutation_sym (sort_strings_perm _)) Nd)).
  destruct (mget String.eqb types n) as [m|] eqn:E.
  - apply (in_mget _ _ _ String.eqb_eq); [exact Nw|]. apply (write_in torder torder_perm); [exact Nd|]. now apply (mget_in _ _ _ String.eqb_eq).
  - apply (mget_none _ _ _ String.eqb_eq). rewrite write_names by easy. intros X. apply (mget_none _ _ _ String.eqb_eq) in E. apply E. apply sort_strings_in. exact X.
Qed.

Lemma after_due i : In i is -> due decls exported pkg i -> gen_methods decls steps (i_name i) = Some (M (i_name i), []).
Proof.
  intros Hi D. destruct R as (all & types & l & r & A & T & Nd & Gm & P & O & Ho).
  apply (due_iff decls exported pkg is G Ti all i A Hi) in D.
  assert (Gi := Gm i Hi D). destruct (gen_methods decls steps (i_name i)) as [[gm ds]|] eqn:E; [|easy].
  assert (Z : ds = []).
  { assert (Z : errs_of decls exported steps all i = []).
    { assert (X : flat_map (errs_of decls exported steps all) is = []).
      { rewrite no_errs in Ho. destruct out as [f|]; [|now destruct Ho]. destruct Ho as (_ & _ & _ & e & X & _). symmetry in X. now apply app_eq_nil in X. }
      destruct (errs_of decls exported steps all i) as [|e es] eqn:Ee; [reflexivity|]. exfalso.
      assert (Y : In e (flat_map (errs_of decls exported steps all) is)) by (apply in_flat_map; exists i; rewrite Ee; split; [easy|now left]). rewrite X in Y. destruct Y. }
    unfold errs_of in Z. unfold dueb in D. destruct (enabled_on_type all (i_marks i)) as [[|]| |]; try discriminate. rewrite D, E in Z.
    now apply map_eq_nil in Z. }
  subst ds. f_equal. f_equal.
  assert (Ec := gen_methods_copy _ _ _ _ _ E). assert (Ei := gen_methods_into _ _ _ _ _ E).
  assert (Ty := types_get types (i_name i) Nd). specialize (Ty ltac:(now destruct out)).
  unfold M, methods_after. rewrite (here i Hi).
  assert (W : code_of (match out with Some f => match mget String.eqb (f_methods f) (i_name i) with Some m => m | None => mkWritten None None None end
                         | None => mkWritten None None None end) = made_code i gm).
  { assert (W' : match out with Some f => match mget String.eqb (f_methods f) (i_name i) with Some m => m | None => mkWritten None None None end
                         | None => mkWritten None None None end = match mget String.eqb types (i_name i) with Some m => m | None => mkWritten None None None end).
    { destruct out as [f|]; rewrite <- Ty; reflexivity. }
    rewrite W'. destruct (mget String.eqb types (i_name i)) as [m|] eqn:Em.
    - apply (mget_in _ _ _ String.eqb_eq) in Em. assert (X : In (i_name i, code_of m) (by_code types)) by (apply in_map_iff; now exists (i_name i, m)).
      rewrite T in X. apply in_flat_map in X. destruct X as (j & Hj & X). apply entry_in in X. destruct X as (En & _ & gm' & ds' & E' & C & _).
      assert (j = i) as ->.
      { clear - N Hi Hj En. revert Hi Hj. induction is as [|x xs IH]; [easy|]. cbn in N. apply NoDup_cons_iff in N. destruct N as [Nx Nxs].
        intros [->|Hi] [->|Hj]; [reflexivity| | |now apply IH].
        - destruct Nx. rewrite En. now apply in_map.
        - destruct Nx. rewrite <- En. now apply in_map. }
      rewrite C. congruence.
    - assert (X : no_code (made_code i gm) = true).
      { destruct (no_code (made_code i gm)) eqn:Nc; [reflexivity|]. exfalso. apply (mget_none _ _ _ String.eqb_eq) in Em. apply Em.
        rewrite <- by_code_names, T. apply in_map_iff. exists (i_name i, made_code i gm). split; [easy|]. apply in_flat_map. exists i. split; [easy|].
        apply entry_in. split; [easy|]. split; [easy|]. now exists gm, []. }
      destruct (made_code i gm) as [[[?|] [?|]] [?|]]; try discriminate. reflexivity. }
  cbv zeta. set (m := match out with Some f => _ | None => _ end) in *. unfold code_of, made_code in W. injection W as W1 W2 _. rewrite W1, W2, Ec.
  destruct gm as [gc gi]. cbn [m_copy m_into] in *. f_equal.
  - subst gc. now destruct (d_copy (decls (i_name i))).
  - destruct (d_into (decls (i_name i))); [now symmetry|]. destruct Ei as (b & ->). reflexivity.
Qed.

Lemma after_other n : home n = Local -> (forall i, In i is -> i_name i = n -> ~ due decls exported pkg i) -> given M n.
Proof.
  intros Hn Hd. unfold given, M, methods_after. rewrite Hn.
  assert (W : match out with Some f => match mget String.eqb (f_methods f) n with Some m => m | None => mkWritten None None None end
                         | None => mkWritten None None None end = mkWritten None None None).
  { assert (Z : forall m, In (n, m) (methods out) -> False).
    { intros m X. destruct (methods_only n m X) as (i & Hi & En & D & _). now apply (Hd i). }
    clear - Z. destruct out as [f|]; [|reflexivity]. destruct (mget String.eqb (f_methods f) n) as [m|] eqn:E; [|reflexivity]. exfalso.
    apply (mget_in _ _ _ String.eqb_eq) in E. now apply (Z m). }
  rewrite W. cbn. split.
  - destruct (d_copy (decls n)) as [p|]; [right; now exists p|now left].
  - destruct (d_into (decls n)); [now right|now left].
Qed.

(** If all types of the package that need methods are asked for, and those of other packages have theirs, the program is one of
    those that DeepProps.v is about: the generated methods make deep copies. *)
Theorem generated_program zero ord man :
  (forall n e, d_under (decls n) = TPtr e -> has_any decls e = false /\ (is_struct (under decls e) -> flat decls e)) ->
  (forall n, shape decls M (d_under (decls n))) ->
  (forall n, home n = Local -> needs_methods decls n ->
     exists i, In i is /\ i_name i = n /\ type_asked pkg (i_marks i) /\ exported n = true /\ i_type i = Defined) ->
  (forall n, home n <> Local -> given M n /\ (needs_methods decls n -> callable decls M n)) ->
  (forall n, (exists p, m_copy (M n) = CopyMan p) \/ m_into (M n) = IntoMan -> copies decls man n) ->
  (forall t, by_ref (under decls t) = true -> zero t = VNil) ->
  (forall kvs, Permutation (ord kvs) kvs) ->
  program decls M zero ord man.
Proof.
  intros Hptr Hshape Hneed Habroad Hman Hzero Hord. destruct G as (Gu & Gp).
  assert (Dec : forall n, (exists i, In i is /\ i_name i = n /\ due decls exported pkg i) \/ (forall i, In i is -> i_name i = n -> ~ due decls exported pkg i)).
  { intros n. destruct R as (all & _ & _ & _ & A & _).
    destruct (existsb (fun i => String.eqb (i_name i) n && dueb decls exported all i) is) eqn:E.
    - left. apply existsb_exists in E. destruct E as (i & Hi & E). apply andb_true_iff in E. destruct E as (E1 & E2). apply String.eqb_eq in E1.
      exists i. split; [easy|]. split; [easy|]. now apply (due_iff decls exported pkg is (conj Gu Gp) Ti all i A Hi).
    - right. intros i Hi Hn D. apply (due_iff decls exported pkg is (conj Gu Gp) Ti all i A Hi) in D.
      assert (X : existsb (fun i => String.eqb (i_name i) n && dueb decls exported all i) is = true); [|congruence].
      apply existsb_exists. exists i. split; [easy|]. rewrite Hn, String.eqb_refl. exact D. }
  constructor; try assumption.
  - intros n. destruct (home n) eqn:Hn; [|left; apply Habroad; congruence|left; apply Habroad; congruence].
    destruct (Dec n) as [(i & Hi & <- & D)|Hd]; [|left; now apply after_other]. right. exists steps. now apply after_due.
  - intros n Hne. destruct (home n) eqn:Hn; [|apply Habroad; congruence|apply Habroad; congruence].
    destruct (Hneed n Hn Hne) as (i & Hi & <- & Ha & Hx & Ht).
    assert (D : due decls exported pkg i).
    { split; [easy|]. split; [easy|]. split; [easy|]. unfold copyable.
      destruct (d_under (decls (i_name i))) as [bad s|m|e|e|k e|fs|s] eqn:U; try exact I.
      - destruct Hne as [X|[X|((fs & X) & _)]]; [now left|now right|congruence].
      - destruct (Gp _ _ U) as (P1 & P2). destruct Hne as [X|[X|((fs & X) & _)]]; congruence. }
    assert (E := after_due i Hi D). assert (Ec := gen_methods_copy _ _ _ _ _ E). assert (Ei := gen_methods_into _ _ _ _ _ E).
    split.
    + unfold into_exists. destruct (d_into (decls (i_name i))); [now rewrite Ei|]. destruct Ei as (b & ->). reflexivity.
    + unfold on_ptr. rewrite Ec. now destruct (d_copy (decls (i_name i))).
Qed.

(** Likewise, the package is one of those that DeepTypesProps.v is about: the code compiles. *)
Theorem generated_package :
  (forall n e, d_under (decls n) = TPtr e -> has_any decls e = false /\ (is_struct (under decls e) -> flat decls e)) ->
  (forall n, cshape decls (d_under (decls n))) ->
  (forall n, home n = Local -> needs_methods decls n ->
     exists i, In i is /\ i_name i = n /\ type_asked pkg (i_marks i) /\ exported n = true /\ i_type i = Defined) ->
  (forall n, home n <> Local -> needs_methods decls n -> callable decls M n) ->
  package decls M /\
  (forall n m ptr b, In (n, m) (methods out) -> w_into m = Some (ptr, b) -> check decls M (start_types n) b = true).
Proof.
  intros Hptr Hshape Hneed Habroad. destruct G as (Gu & Gp).
  assert (Due : forall n, home n = Local -> needs_methods decls n -> exists i, In i is /\ i_name i = n /\ due decls exported pkg i).
  { intros n Hn Hne. destruct (Hneed n Hn Hne) as (i & Hi & <- & Ha & Hx & Ht). exists i. split; [easy|]. split; [easy|].
    split; [easy|]. split; [easy|]. split; [easy|]. unfold copyable.
    destruct (d_under (decls (i_name i))) as [bad s|m|e|e|k e|fs|s] eqn:U; try exact I.
    - destruct Hne as [X|[X|((fs & X) & _)]]; [now left|now right|congruence].
    - destruct (Gp _ _ U) as (P1 & P2). destruct Hne as [X|[X|((fs & X) & _)]]; congruence. }
  assert (Pk : package decls M).
  { constructor; try assumption. intros n Hne. destruct (home n) eqn:Hn; [|apply Habroad; congruence|apply Habroad; congruence].
    destruct (Due n Hn Hne) as (i & Hi & <- & D).
    assert (E := after_due i Hi D). assert (Ec := gen_methods_copy _ _ _ _ _ E). assert (Ei := gen_methods_into _ _ _ _ _ E).
    split.
    + unfold into_exists. destruct (d_into (decls (i_name i))); [now rewrite Ei|]. destruct Ei as (b & ->). reflexivity.
    + unfold on_ptr. rewrite Ec. now destruct (d_copy (decls (i_name i))). }
  split; [exact Pk|]. intros n m ptr b Hin Hw. destruct (methods_only n m Hin) as (i & Hi & <- & D & (C & _) & _).
  assert (E := after_due i Hi D). apply (generated_code_checks decls M steps (i_name i) (M (i_name i)) ptr b Pk E).
  unfold M, methods_after. rewrite (here i Hi). cbn [m_into].
  assert (Hd : d_into (decls (i_name i)) = false) by (apply C; congruence). rewrite Hd.
  assert (Nw := proj2 methods_sorted). clear - Hin Hw Nw. destruct out as [f|]; [|destruct Hin]. cbn [methods] in Hin, Nw.
  rewrite (in_mget _ _ _ String.eqb_eq _ _ _ Nw Hin), Hw. reflexivity.
Qed.
End After.
End Claims.
Print Assumptions methods_given.
Print Assumptions methods_only.
Print Assumptions methods_sorted.
Print Assumptions file_written.
Print Assumptions imports_exact.
Print Assumptions unknown_reported.
Print Assumptions generated_program.
Print Assumptions generated_package.

(** ** The order of the types and of iteration *)

Section Orders.
Variable decls : string -> decl.
Variable exported : string -> bool.
Variable home : string -> place.
Variable letter digit : nat -> bool.
Variable steps rounds : nat.
Variable name_of : word -> option word.
Variable pkg : mvals.
Hypothesis Tp : typed pkg.

Lemma written_same torder torder' m : (forall l, Permutation (torder l) l) -> (forall l, Permutation (torder' l) l) ->
  write_methods torder m = write_methods torder' m.
Proof.
  intros P P'. unfold write_methods. rewrite (sort_strings_perm_eq (map fst (torder m)) (map fst (torder' m))); [reflexivity|].
  apply Permutation_map. transitivity m; [apply P|symmetry; apply P'].
Qed.

Lemma codes_same (a b : list (string * written)) : by_code a = by_code b ->
  Forall2 (fun x y => fst x = fst y /\ same_code (snd x) (snd y)) a b.
Proof.
  revert b. induction a as [|[n m] a IH]; intros [|[n' m'] b] H; try discriminate; [constructor|]. unfold by_code in H. cbn [map] in H.
  assert (H1 := f_equal (List.hd ("", code_of m)) H). assert (H2 := f_equal (@List.tl _) H). cbn [List.hd List.tl] in H1, H2.
  constructor; [|now apply IH]. cbn [fst snd] in *. assert (E1 := f_equal fst H1). assert (E2 := f_equal snd H1). cbn [fst snd] in E1, E2.
  split; [exact E1|]. unfold code_of in E2. injection E2 as E3 E4 E5. split; [exact E3|]. split; [exact E4|].
  destruct (w_object m) as [[p x]|], (w_object m') as [[p' x']|]; cbn in *; try discriminate; congruence.
Qed.

(** Neither the order in which the types come nor an order of iteration matters to the methods, but for the aliases of packages,
    nor to the errors. *)
Theorem order_irrelevant is is' torder torder' porder porder' formats formats' root root' out errs out' errs' :
  (forall l, Permutation (torder l) l) -> (forall l, Permutation (torder' l) l) ->
  NoDup (map i_name is) -> Permutation is is' ->
  generate_for_package decls exported home letter digit steps rounds torder porder name_of formats root (Some pkg) (Some is) = Done (out, errs) ->
  generate_for_package decls exported home letter digit steps rounds torder' porder' name_of formats' root' (Some pkg) (Some is') = Done (out', errs') ->
  Forall2 (fun x y => fst x = fst y /\ same_code (snd x) (snd y)) (methods out) (methods out') /\
  (forall e, e <> EFormat -> (In e errs <-> In e errs')).
Proof.
  intros P P' N Pi H H'. assert (N' : NoDup (map i_name is')) by (apply (Permutation_NoDup (Permutation_map _ Pi) N)).
  destruct (result_inv _ _ _ _ _ _ _ _ _ _ _ _ _ _ Tp N _ _ H) as (all & types & l & r & A & T & Nd & _ & _ & _ & Ho).
  destruct (result_inv _ _ _ _ _ _ _ _ _ _ _ _ _ _ Tp N' _ _ H') as (all' & types' & l' & r' & A' & T' & Nd' & _ & _ & _ & Ho').
  assert (all' = all) as -> by (destruct all, all'; try reflexivity; [apply A', A|symmetry; apply A, A']; reflexivity).
  assert (Pt : Permutation (by_code types) (by_code types')) by (rewrite T, T'; now apply Permutation_flat_map).
  split.
  - assert (W : methods out = write_methods torder types).
    { destruct out as [f|]; cbn [methods]; [now destruct Ho as (_ & _ & -> & _)|]. destruct Ho as (-> & _).
      unfold write_methods. assert (X := P []). apply Permutation_sym, Permutation_nil in X. now rewrite X. }
    assert (W' : methods out' = write_methods torder types').
    { rewrite (written_same torder torder') by easy. destruct out' as [f|]; cbn [methods]; [now destruct Ho' as (_ & _ & -> & _)|]. destruct Ho' as (-> & _).
      unfold write_methods. assert (X := P' []). apply Permutation_sym, Permutation_nil in X. now rewrite X. }
    rewrite W, W'. apply codes_same. now apply write_codes.
  - intros e He.
    assert (F : forall (o : option file) es js ts ip ms, match o with
              | Some f => ts <> [] /\ f_imports f = ip /\ f_methods f = ms /\
                          (exists e0, es = flat_map (errs_of decls exported steps all) js ++ e0 /\ (e0 = [] \/ e0 = [EFormat]))
              | None => ts = @nil (string * written) /\ es = flat_map (errs_of decls exported steps all) js end ->
              (In e es <-> In e (flat_map (errs_of decls exported steps all) js))).
    { intros [f|] es js ts ip ms.
      - intros (_ & _ & _ & e0 & -> & E0). split; [|intros X; apply in_or_app; now left]. intros X. apply in_app_or in X. destruct X as [X|X]; [exact X|].
        destruct E0 as [-> | ->]; [destruct X|]. destruct X as [X|[]]. now destruct He.
      - now intros (_ & ->). }
    rewrite (F _ _ _ _ _ _ Ho), (F _ _ _ _ _ _ Ho'). assert (Q := Permutation_flat_map (errs_of decls exported steps all) Pi).
    split; apply Permutation_in; [exact Q|now symmetry].
Qed.
End Orders.
Print Assumptions order_irrelevant.

(** ** The generator comes to an end *)

Section Ends.
Variable decls : string -> decl.
Variable exported : string -> bool.
Variable home : string -> place.
Variable letter digit : nat -> bool.
Variables hold follow : string -> nat.
Hypothesis GR : grounded decls hold follow.
Hypothesis no_universe : forall n m, In m (mentions (d_under (decls n))) -> home m <> Universe.

(** [f], given enough steps, is [r]. *)
Definition settles {A} (f : nat -> nat -> run A) (r : A) : Prop := exists k, forall steps rounds, k <= steps -> k <= rounds -> f steps rounds = Done r.

Lemma settles_bind {A B} (f : nat -> nat -> run A) (g : nat -> nat -> A -> run B) a b :
  settles f a -> settles (fun s r => g s r a) b -> settles (fun s r => bind (f s r) (g s r)) b.
Proof.
  intros (k & H) (j & J). exists (k + j). intros s r Hs Hr. rewrite H by lia. cbn [bind]. apply J; lia.
Qed.

Lemma need_settles l p : exists l1 a, exists k, forall n, k <= n -> need_import letter digit n l p = Some (l1, a).
Proof.
  destruct (needs_end letter digit [p] l) as (n & [l2 r] & H).
  assert (X := H n (le_n _)). cbn [need_imports] in X. destruct (need_import letter digit n l p) as [[l1 a]|] eqn:E; [|discriminate].
  exists l1, a, n. intros j Hj. replace j with ((j - n) + n) by lia. now apply need_more.
Qed.

Lemma names_settle ns : (forall n, In n ns -> home n <> Universe) -> forall l, exists l1, settles (fun _ r => use_names home letter digit r l ns) l1.
Proof.
  induction ns as [|n ns IH]; intros Hn l; [exists l, 0; reflexivity|].
  assert (IH' := IH (fun m Hm => Hn m (or_intror Hm))). cbn [use_names]. assert (Hu := Hn n (or_introl eq_refl)). destruct (home n) as [|p|]; [apply IH'| |easy].
  destruct (need_settles l p) as (l1 & a & k & Hk). destruct (IH' l1) as (l2 & j & Hj). exists l2, (k + j). intros s r Hs Hr.
  rewrite Hk by lia. apply (Hj s r); lia.
Qed.

Lemma gen_settles n : exists x, exists k, forall j, k <= j -> gen_methods decls j n = Some x.
Proof.
  destruct (methods_end decls hold follow GR n) as (k & H). assert (X := H k (le_n _)). destruct (gen_methods decls k n) as [x|] eqn:E; [|easy].
  exists x, k. intros j Hj. replace j with ((j - k) + k) by lia. now apply methods_mono.
Qed.

Lemma type_settles i l : typed (i_marks i) -> home (i_name i) <> Universe ->
  exists r, settles (fun s r => generate_methods_for decls home letter digit s r i l) r.
Proof.
  intros T Hu. destruct (gen_settles (i_name i)) as ([gm ds] & k & Hk).
  set (into := match m_into gm with IntoGen p b => Some (p, b) | _ => None end).
  assert (Hn : forall n, In n (match into with Some (_, b) => body_names b | None => [] end) -> home n <> Universe).
  { intros n Hin. unfold into in Hin. destruct (m_into gm) as [| |p b] eqn:Ei; try destruct Hin.
    apply (methods_fine decls (fun n => home n <> Universe) no_universe k (i_name i) gm ds p b Hu (Hk k (le_n _)) Ei n Hin). }
  destruct (names_settle _ Hn l) as (l1 & j & Hj). destruct (object_run _ T) as (o & Eo & _).
  destruct (need_settles l1 runtime_path) as (l2 & a & q & Hq).
  exists (match m_copy gm with
          | CopyGen p => if o then (mkWritten into (Some p) (Some (p, a)), map (EGen (i_name i)) ds, l2)
                         else (mkWritten into (Some p) None, map (EGen (i_name i)) ds, l1)
          | _ => (mkWritten into None None, map (EGen (i_name i)) ds, l1)
          end), (k + j + q).
  intros s r Hs Hr. unfold generate_methods_for. rewrite Hk by lia. cbv zeta. fold into.
  assert (X := Hj s r ltac:(lia) ltac:(lia)). cbv beta in X. rewrite X. cbn [bind]. destruct (m_copy gm); try reflexivity. rewrite Eo. cbn [bind].
  destruct o; [|reflexivity]. rewrite Hq by lia. reflexivity.
Qed.

Lemma types_settle all is : Forall (fun i => typed (i_marks i) /\ home (i_name i) <> Universe) is ->
  forall s, exists s', settles (fun st r => all_types decls exported home letter digit st r all is s) s'.
Proof.
  induction 1 as [|i is (T & Hu) _ IH]; intros s; [exists s, 0; reflexivity|]. cbn [all_types].
  assert (exists s1, settles (fun st r => one_type decls exported home letter digit st r all i s) s1) as (s1 & H1).
  { unfold one_type. assert (exists b, enabled_on_type all (i_marks i) = Done b) as (b & ->).
    { assert (Q : exists p, all = true <-> package_asked p).
      { destruct all; [exists [(generate_name, [VBool true])]; split; [intros _; left; exists []; now left|easy]|].
        exists []. split; [discriminate|]. intros [(l & [])|(_ & x & (l & []) & _)]. }
      destruct Q as (p & Q). destruct (type_run p (i_marks i) all T Q) as (b & Eb & _). now exists b. }
    cbn [bind]. destruct b; cbn [negb]; [|exists s, 0; reflexivity].
    destruct (should_be_copied decls exported i) as [c es]. destruct c; cbn [negb]; [|eexists; exists 0; reflexivity].
    destruct (type_settles i (g_imports s) T Hu) as ([[m es'] l] & H). eexists.
    eapply settles_bind; [exact H|]. exists 0. reflexivity. }
  destruct (IH s1) as (s2 & H2). exists s2. exact (settles_bind _ _ _ _ H1 H2).
Qed.

(** For types as go/types has them, none of them made of a predeclared type that has a name and no package, it comes to an end
    and does not panic: for enough steps there is one result. *)
Theorem generator_ends torder porder name_of formats root pkg is :
  typed pkg -> Forall (fun i => typed (i_marks i) /\ home (i_name i) <> Universe) is ->
  exists r k, forall steps rounds, k <= steps -> k <= rounds ->
    generate_for_package decls exported home letter digit steps rounds torder porder name_of formats root (Some pkg) (Some is) = Done r.
Proof.
  intros Tp Ti. destruct (package_run pkg Tp) as (all & Ea & _). destruct (types_settle all is Ti (mkG [] (no_imports root) [])) as (s & k & H).
  eexists. exists k. intros st r Hs Hr. unfold generate_for_package. rewrite Ea. cbn [bind]. rewrite H by lia. cbn [bind].
  instantiate (1 := match g_types s with
                    | [] => (None, g_errs s)
                    | _ => (Some (mkFile (import_specs name_of porder (g_imports s)) (write_methods torder (g_types s))),
                            g_errs s ++ if formats (mkFile (import_specs name_of porder (g_imports s)) (write_methods torder (g_types s))) then [] else [EFormat])
                    end).
  now destruct (g_types s).
Qed.
End Ends.
Print Assumptions generator_ends.

(** ** Cases *)

Definition ascii_letter (c : nat) : bool := ((65 <=? c) && (c <=? 90)) || ((97 <=? c) && (c <=? 122)).
Definition ascii_digit (c : nat) : bool := (48 <=? c) && (c <=? 57).
Definition ex_exported (n : string) : bool :=
  match n with String c _ => let k := nat_of_ascii c in (65 <=? k) && (k <=? 90) | EmptyString => false end.
Definition ex_formats (f : file) : bool := true.
Definition ex_names (p : word) : option word := None.

(** The types of DeepProps.v, in a package that asks for all; Node is to be a runtime.Object. *)
Definition ex_home (n : string) : place := Local.
Definition ex_pkg : mvals := [(generate_name, [VBool true])].
Definition ex_infos : list info :=
  [mkInfo "Time" [] Defined; mkInfo "Tags" [] Defined; mkInfo "Node" [(root_name, [VBool true])] Defined].
Definition ex_result : run (option file * list gerr) :=
  generate_for_package ex_decls ex_exported ex_home ascii_letter ascii_digit 10 100 (@rev _) (@rev _) ex_names ex_formats (w "v1")
    (Some ex_pkg) (Some ex_infos).
Definition ex_out : option file := match ex_result with Done (o, _) => o | _ => None end.

Example ex_done : ex_result = Done (ex_out, []).
Proof. now vm_compute. Qed.
Example ex_written : map (fun nm => (fst nm, match w_into (snd nm) with Some _ => true | None => false end, w_copy (snd nm), option_map fst (w_object (snd nm))))
    (methods ex_out) = [("Node", true, Some true, Some true); ("Tags", true, Some false, None); ("Time", false, Some true, None)].
Proof. now vm_compute. Qed.
Example ex_imports : match ex_out with Some f => f_imports f = [(Some (w "runtime"), w "k8s.io/apimachinery/pkg/runtime")] | None => False end.
Proof. now vm_compute. Qed.

Lemma typed_none : typed [].
Proof. constructor; [constructor|..]; now intros x (l & H). Qed.
Lemma typed_one n b : n = generate_name \/ n = root_name -> typed [(n, [VBool b])].
Proof.
  intros H. constructor; [repeat constructor; intros []| | |]; intros x (l & [E|[]]); injection E as E1 E2 _; subst x; try (now exists b).
  exfalso. subst n. destruct H as [H|H]; vm_compute in H; discriminate.
Qed.
Example ex_typed : typed ex_pkg /\ Forall (fun i => typed (i_marks i)) ex_infos.
Proof.
  split; [apply typed_one; now left|]. constructor; [exact typed_none|]. constructor; [exact typed_none|]. constructor; [|constructor].
  apply (typed_one root_name true). now right.
Qed.
Example ex_go_decls : go_decls ex_decls.
Proof.
  split.
  - intros n m. ex_cases n; [discriminate..|]. now rewrite D.
  - intros n e. ex_cases n; [discriminate..|]. now rewrite D.
Qed.
Example ex_names_differ : NoDup (map i_name ex_infos).
Proof. repeat constructor; cbn; intuition discriminate. Qed.
Example ex_asked i : In i ex_infos -> type_asked ex_pkg (i_marks i).
Proof.
  intros H. right. right.
  assert (A : package_asked ex_pkg) by (left; exists []; now left).
  destruct H as [<-|[<-|[<-|[]]]]; cbn [i_marks]; (split; [intros l H|split; [intros l H|now left]]); try destruct H.
  - injection H as H _. vm_compute in H. discriminate.
  - destruct H.
  - injection H as H _. vm_compute in H. discriminate.
  - destruct H.
Qed.

(** The program with the generated file is the one of DeepProps.v. *)
Definition ex_abroad (n : string) : meths := mkmeths NoCopy NoInto.
Example ex_after : program ex_decls (methods_after ex_decls ex_home ex_abroad ex_out) ex_zero (@rev _) ex_man /\
                   package ex_decls (methods_after ex_decls ex_home ex_abroad ex_out).
Proof.
  assert (Q : forall n, methods_after ex_decls ex_home ex_abroad ex_out n = ex_meths n).
  { intros n. unfold ex_meths. destruct (String.eqb n "Node") eqn:E1; [apply String.eqb_eq in E1; subst n; now vm_compute|].
    destruct (String.eqb n "Tags") eqn:E2; [apply String.eqb_eq in E2; subst n; now vm_compute|].
    destruct (String.eqb n "Time") eqn:E3; [apply String.eqb_eq in E3; subst n; now vm_compute|].
    cbn [orb]. unfold methods_after, ex_home, ex_decls. rewrite E1, E2, E3. cbn [d_copy d_into].
    destruct ex_out as [f|] eqn:Ef; [|reflexivity]. destruct (mget String.eqb (f_methods f) n) as [m|] eqn:Em; [|reflexivity]. exfalso.
    apply (mget_in _ _ _ String.eqb_eq) in Em. assert (X : In n (map fst (methods ex_out))) by (rewrite Ef; apply in_map_iff; now exists (n, m)).
    replace (map fst (methods ex_out)) with ["Node"; "Tags"; "Time"] in X by now vm_compute.
    destruct X as [<-|[<-|[<-|[]]]]; discriminate. }
  assert (Hneed : forall n, ex_home n = Local -> needs_methods ex_decls n ->
     exists i, In i ex_infos /\ i_name i = n /\ type_asked ex_pkg (i_marks i) /\ ex_exported n = true /\ i_type i = Defined).
  { intros n _. ex_cases n.
    - intros _. eexists. split; [right; right; left; reflexivity|]. split; [reflexivity|]. split; [apply ex_asked; right; right; now left|now split].
    - intros _. eexists. split; [right; left; reflexivity|]. split; [reflexivity|]. split; [apply ex_asked; right; now left|now split].
    - intros _. eexists. split; [left; reflexivity|]. split; [reflexivity|]. split; [apply ex_asked; now left|now split].
    - unfold needs_methods. rewrite D. intros [X|[X|((? & X) & _)]]; try discriminate X. now destruct X. }
  assert (P := ex_program). assert (K := ex_package). assert (Run := ex_done). unfold ex_result in Run. split.
  - eapply (generated_program _ _ _ _ _ _ _ _ _ _ _ _ _ _ (fun l => Permutation_sym (Permutation_rev l)) ex_go_decls (proj1 ex_typed) (proj2 ex_typed) ex_names_differ _ _ Run).
    + reflexivity.
    + reflexivity.
    + apply P.
    + intros n. ex_cases n; [| | |now rewrite D].
      * cbn. repeat split; try (now intros (? & ?)); try discriminate; easy.
      * cbn. repeat split; try (now intros (? & ?)); discriminate.
      * exact I.
    + exact Hneed.
    + intros n X. now destruct X.
    + intros n X. rewrite Q in X. now apply P.
    + apply P.
    + apply P.
  - apply (generated_package _ _ _ _ _ _ _ _ _ _ _ _ _ _ (fun l => Permutation_sym (Permutation_rev l)) ex_go_decls (proj1 ex_typed) (proj2 ex_typed) ex_names_differ _ _ Run).
    + reflexivity.
    + reflexivity.
    + apply K.
    + apply K.
    + exact Hneed.
    + intros n X. now destruct X.
Qed.

(** ** Where it goes wrong *)

Definition one_decl (n : string) (d : decl) (others : string -> decl) (m : string) : decl := if String.eqb m n then d else others m.
Definition no_decls (n : string) : decl := mkdecl (TBasic false "int") None false.
Definition gen_all decls home is : run (option file * list gerr) :=
  generate_for_package decls ex_exported home ascii_letter ascii_digit 20 100 (fun l => l) (fun l => l) ex_names ex_formats (w "v1") (Some ex_pkg) (Some is).

(** type T struct { E []error }: the generator panics, error being in no package. *)
Theorem predeclared_panics_refuted :
  ~ (forall decls home is, go_decls decls -> Forall (fun i => typed (i_marks i) /\ home (i_name i) = Local) is -> gen_all decls home is <> Panics).
Proof.
  intros H.
  apply (H (one_decl "T" (mkdecl (TStruct [TSlice (TNamed "error")]) None false) (one_decl "error" (mkdecl (TOther "interface") None false) no_decls))
           (fun n => if String.eqb n "error" then Universe else Local) [mkInfo "T" [] Defined]).
  - split; intros n x; unfold one_decl; destruct (String.eqb n "T"); [discriminate| |discriminate|]; destruct (String.eqb n "error"); discriminate.
  - constructor; [|constructor]. split; [exact typed_none|reflexivity].
  - now vm_compute.
Qed.
Print Assumptions predeclared_panics_refuted.

(** object:root=true does not always give a DeepCopyObject, and there is no error: the DeepCopy may be written by hand. *)
Theorem root_gets_object_refuted :
  ~ (forall decls is i out, go_decls decls -> In i is -> object_asked (i_marks i) -> i_type i = Defined -> ex_exported (i_name i) = true ->
     gen_all decls (fun _ => Local) is = Done (out, []) -> exists m, In (i_name i, m) (methods out) /\ w_object m <> None).
Proof.
  intros H.
  set (d := one_decl "T" (mkdecl (TStruct [TBasic false "string"]) (Some true) false) no_decls).
  set (i := mkInfo "T" [(root_name, [VBool true])] Defined).
  assert (G : go_decls d) by (split; intros n x; unfold d, one_decl; destruct (String.eqb n "T"); discriminate).
  destruct (gen_all d (fun _ => Local) [i]) as [[out errs]| |] eqn:E; [|vm_compute in E; discriminate..].
  assert (errs = []) as -> by (vm_compute in E; congruence).
  assert (O : object_asked (i_marks i)) by (left; exists []; now left).
  destruct (H d [i] i out G (or_introl eq_refl) O eq_refl eq_refl E) as (m & Hm & W).
  assert (out = match gen_all d (fun _ => Local) [i] with Done (o, _) => o | _ => None end) as -> by now rewrite E.
  vm_compute in Hm. destruct Hm as [Hm|[]]. injection Hm as <-. now apply W.
Qed.
Print Assumptions root_gets_object_refuted.

(** A type whose name is not exported gets no methods, and those of a type made of it call them: type T struct { S s } and
    type s struct { L []string }. Go does not compile the code, and there is no error. *)
Theorem all_code_compiles_refuted :
  ~ (forall decls is out n m ptr b, go_decls decls -> Forall (fun i => typed (i_marks i)) is -> Forall (fun i => i_type i = Defined) is ->
     (forall n, d_copy (decls n) = None /\ d_into (decls n) = false) -> (forall n, cshape decls (d_under (decls n))) ->
     gen_all decls (fun _ => Local) is = Done (out, []) ->
     In (n, m) (methods out) -> w_into m = Some (ptr, b) ->
     check decls (methods_after decls (fun _ => Local) ex_abroad out) (start_types n) b = true).
Proof.
  intros H.
  set (d := one_decl "T" (mkdecl (TStruct [TNamed "s"]) None false) (one_decl "s" (mkdecl (TStruct [TSlice (TBasic false "string")]) None false) no_decls)).
  set (is := [mkInfo "T" [] Defined; mkInfo "s" [] Defined]).
  destruct (gen_all d (fun _ => Local) is) as [[out errs]| |] eqn:E; [|vm_compute in E; discriminate..].
  assert (errs = []) as -> by (vm_compute in E; congruence).
  assert (Eo : out = match gen_all d (fun _ => Local) is with Done (o, _) => o | _ => None end) by now rewrite E.
  destruct (methods out) as [|[n m] l] eqn:Em; [rewrite Eo in Em; vm_compute in Em; discriminate|].
  destruct (w_into m) as [[ptr b]|] eqn:Ew.
  2:{ rewrite Eo in Em. vm_compute in Em. injection Em as _ <- _. discriminate. }
  assert (X : check d (methods_after d (fun _ => Local) ex_abroad out) (start_types n) b = true).
  { apply (H d is out n m ptr b); try assumption.
    - split; intros k x; unfold d, one_decl; destruct (String.eqb k "T"); [discriminate| |discriminate|]; destruct (String.eqb k "s"); discriminate.
    - repeat (constructor; [exact typed_none|]). constructor.
    - repeat constructor.
    - intros k. unfold d, one_decl. destruct (String.eqb k "T"); [now split|]. destruct (String.eqb k "s"); now split.
    - intros k. unfold d at 2, one_decl at 1. destruct (String.eqb k "T").
      { cbn. repeat split; try (now intros (? & ?)); try discriminate. }
      unfold one_decl. destruct (String.eqb k "s"); [|exact I]. cbn. repeat split; try (now intros (? & ?)); try discriminate.
    - rewrite Em. now left. }
  rewrite Eo in Em. vm_compute in Em. injection Em as <- <- _. cbn in Ew. injection Ew as <- <-. rewrite Eo in X. vm_compute in X. discriminate.
Qed.
Print Assumptions all_code_compiles_refuted.

(** A named pointer type gets methods if what it points to has some by hand; but Go has no methods on pointer types. *)
Theorem no_pointer_methods_refuted :
  ~ (forall decls is out n m e, go_decls decls -> gen_all decls (fun _ => Local) is = Done (out, []) -> In (n, m) (methods out) -> d_under (decls n) <> TPtr e).
Proof.
  intros H.
  set (d := one_decl "P" (mkdecl (TPtr (TNamed "T")) None false) (one_decl "T" (mkdecl (TStruct []) (Some true) true) no_decls)).
  destruct (gen_all d (fun _ => Local) [mkInfo "P" [] Defined]) as [[out errs]| |] eqn:E; [|vm_compute in E; discriminate..].
  assert (errs = []) as -> by (vm_compute in E; congruence).
  assert (Eo : out = match gen_all d (fun _ => Local) [mkInfo "P" [] Defined] with Done (o, _) => o | _ => None end) by now rewrite E.
  destruct (methods out) as [|[n m] l] eqn:Em; [rewrite Eo in Em; vm_compute in Em; discriminate|].
  apply (H d [mkInfo "P" [] Defined] out n m (TNamed "T")); [|exact E|rewrite Em; now left|].
  - split; intros k x; unfold d, one_decl; destruct (String.eqb k "P"); [discriminate| |now split|]; destruct (String.eqb k "T"); discriminate.
  - rewrite Eo in Em. vm_compute in Em. injection Em as <- _ _. reflexivity.
Qed.
Print Assumptions no_pointer_methods_refuted.

(** Which package gets the short alias depends on the order of the types: A uses a/v2, and B uses b/v2. *)
Theorem imports_by_order_refuted :
  ~ (forall decls home is is' f f', go_decls decls -> Permutation is is' -> (forall n p, home n = Foreign p -> ~ means p []) ->
     gen_all decls home is = Done (Some f, []) -> gen_all decls home is' = Done (Some f', []) -> Permutation (f_imports f) (f_imports f')).
Proof.
  intros H.
  set (d := one_decl "A" (mkdecl (TStruct [TSlice (TNamed "X")]) None false) (one_decl "B" (mkdecl (TStruct [TSlice (TNamed "Y")]) None false) no_decls)).
  set (h := fun n => if String.eqb n "X" then Foreign (w "a/v2") else if String.eqb n "Y" then Foreign (w "b/v2") else Local).
  set (a := mkInfo "A" [] Defined). set (b := mkInfo "B" [] Defined).
  destruct (gen_all d h [a; b]) as [[[f|] errs]| |] eqn:E; [|vm_compute in E; discriminate..].
  destruct (gen_all d h [b; a]) as [[[f'|] errs']| |] eqn:E'; [|vm_compute in E'; discriminate..].
  assert (errs = []) as -> by (vm_compute in E; congruence). assert (errs' = []) as -> by (vm_compute in E'; congruence).
  assert (P : Permutation (f_imports f) (f_imports f')).
  { apply (H d h [a; b] [b; a]); [|apply perm_swap| |exact E|exact E'].
    1:{ split; intros k x; unfold d, one_decl; destruct (String.eqb k "A"); [discriminate| |discriminate|]; destruct (String.eqb k "B"); discriminate. }
    intros n p Hp M. apply means_fun in M. unfold h in Hp. destruct (String.eqb n "X"); [injection Hp as <-; vm_compute in M; discriminate|].
    destruct (String.eqb n "Y"); [injection Hp as <-; vm_compute in M; discriminate|discriminate]. }
  vm_compute in E, E'. injection E as <-. injection E' as <-. cbn in P.
  match type of P with Permutation (?x :: _) _ => assert (Y := Permutation_in x P (or_introl eq_refl)) end.
  vm_compute in Y. intuition discriminate.
Qed.
Print Assumptions imports_by_order_refuted.
