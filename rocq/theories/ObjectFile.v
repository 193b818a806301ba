(** * The object generator: the file *)

From Coq Require Import String Ascii List Bool Arith Lia Permutation Sorted.
Import ListNotations.
From Verif Require Import GoLib GoLibFacts MapFacts DeepModel DeepSpec DeepEnds ImportModel ImportSpec ImportProofs ObjectModel ObjectSpec ObjectProofs.
Open Scope string_scope.
Open Scope nat_scope.
Open Scope list_scope.

(** ** The methods of a type *)

Lemma gen_methods_copy decls k n gm ds : gen_methods decls k n = Some (gm, ds) ->
  m_copy gm = match d_copy (decls n) with Some p => CopyMan p | None => CopyGen (ptr_receiver decls (TNamed n)) end.
Proof.
  unfold gen_methods. destruct (d_into (decls n)); [now intros [= <- _]|]. destruct (d_copy (decls n)) as [[|]|]; try now intros [= <- _].
  destruct (gen_block decls k (TNamed n)) as [[b es]|]; [|discriminate]. now intros [= <- _].
Qed.
Lemma gen_methods_into decls k n gm ds : gen_methods decls k n = Some (gm, ds) ->
  if d_into (decls n) then m_into gm = IntoMan else exists b, m_into gm = IntoGen (ptr_receiver decls (TNamed n)) b.
Proof.
  unfold gen_methods. destruct (d_into (decls n)); [now intros [= <- _]|]. destruct (d_copy (decls n)) as [[|]|]; try (intros [= <- _]; cbn; now eexists).
  destruct (gen_block decls k (TNamed n)) as [[b es]|]; [|discriminate]. intros [= <- _]. cbn. now exists b.
Qed.

(** ** writeMethods *)

Section Write.
Variable torder : list (string * written) -> list (string * written).
Hypothesis torder_perm : forall l, Permutation (torder l) l.

Lemma write_names m : NoDup (map fst m) -> map fst (write_methods torder m) = sort_strings (map fst m).
Proof.
  intros N. unfold write_methods. rewrite (sort_strings_perm_eq (map fst (torder m)) (map fst m)) by (apply Permutation_map, torder_perm).
  assert (H : forall n, In n (sort_strings (map fst m)) -> In n (map fst m)) by (intros n; apply sort_strings_in).
  induction (sort_strings (map fst m)) as [|n l IH]; [reflexivity|]. cbn [flat_map]. rewrite map_app, IH by (intros x Hx; apply H; now right).
  destruct (mget String.eqb m n) as [x|] eqn:E; [reflexivity|]. apply (mget_none _ _ _ String.eqb_eq) in E. destruct E. apply H. now left.
Qed.

Lemma write_in m n x : NoDup (map fst m) -> (In (n, x) (write_methods torder m) <-> In (n, x) m).
Proof.
  intros N. unfold write_methods. rewrite in_flat_map. split.
  - intros (k & _ & H). destruct (mget String.eqb m k) as [y|] eqn:E; [|destruct H]. destruct H as [[= <- <-]|[]]. now apply (mget_in _ _ _ String.eqb_eq).
  - intros H. exists n. split.
    + apply sort_strings_in. apply in_map_iff. exists (n, x). split; [easy|]. apply (Permutation_in _ (Permutation_sym (torder_perm m))). exact H.
    + rewrite (in_mget _ _ _ String.eqb_eq m n x N H). now left.
Qed.

Lemma write_codes m m' : NoDup (map fst m) -> NoDup (map fst m') -> Permutation (by_code m) (by_code m') ->
  by_code (write_methods torder m) = by_code (write_methods torder m').
Proof.
  intros N N' P.
  assert (K : sort_strings (map fst m) = sort_strings (map fst m')).
  { apply sort_strings_perm_eq. rewrite <- (by_code_names m), <- (by_code_names m'). now apply Permutation_map. }
  assert (A : forall l l' : list (string * code), map fst l = map fst l' -> NoDup (map fst l) -> (forall x, In x l <-> In x l') -> l = l').
  { induction l as [|[k v] l IH]; intros [|[k' v'] l'] E Nd H; try discriminate; [reflexivity|]. cbn in E. injection E as <- E.
    cbn in Nd. apply NoDup_cons_iff in Nd. destruct Nd as [Nk Nd].
    assert (v = v').
    { destruct (proj1 (H (k, v)) (or_introl eq_refl)) as [X|X]; [congruence|]. exfalso. apply Nk. rewrite E. apply in_map_iff. now exists (k, v). }
    subst v'. f_equal. apply IH; [easy|easy|]. intros [j x]. split; intros X.
    - destruct (proj1 (H (j, x)) (or_intror X)) as [Y|Y]; [|easy]. injection Y as <- <-. destruct Nk. apply in_map_iff. now exists (k, v).
    - destruct (proj2 (H (j, x)) (or_intror X)) as [Y|Y]; [|easy]. injection Y as <- <-. destruct Nk. rewrite E. apply in_map_iff. now exists (k, v). }
  assert (I : forall m, NoDup (map fst m) -> forall x, In x (by_code (write_methods torder m)) <-> In x (by_code m)).
  { clear - torder_perm. intros m N x. unfold by_code. rewrite !in_map_iff. split; intros ([n y] & E & H); exists (n, y); (split; [easy|]); apply (write_in m n y N); exact H. }
  apply A.
  - rewrite !by_code_names, !write_names by easy. exact K.
  - rewrite by_code_names, write_names by easy. apply (Permutation_NoDup (Permutation_sym (sort_strings_perm _)) N).
  - intros x. rewrite (I m N), (I m' N'). split; apply Permutation_in; [exact P|now symmetry].
Qed.
End Write.

(** ** The result *)

Section Result.
Variable decls : string -> decl.
Variable exported : string -> bool.
Variable home : string -> place.
Variable letter digit : nat -> bool.
Variable steps rounds : nat.
Variable torder : list (string * written) -> list (string * written).
Variable porder : list (word * word) -> list (word * word).
Variable name_of : word -> option word.
Variable formats : file -> bool.
Variable root : word.
Variable pkg : mvals.
Variable is : list info.

Hypothesis torder_perm : forall l, Permutation (torder l) l.
Hypothesis G : go_decls decls.
Hypothesis Tp : typed pkg.
Hypothesis Ti : Forall (fun i => typed (i_marks i)) is.
Hypothesis N : NoDup (map i_name is).

Notation entry := (entry decls exported steps).
Notation errs_of := (errs_of decls exported steps).

Lemma due_iff all i : (all = true <-> package_asked pkg) -> In i is -> (dueb decls exported all i = true <-> due decls exported pkg i).
Proof using G Ti.
  clear letter digit steps rounds torder porder name_of formats root torder_perm N Tp home.
  intros A Hi. rewrite Forall_forall in Ti. unfold dueb, due. destruct (type_run pkg (i_marks i) all (Ti i Hi) A) as (b & E & Hb). rewrite E.
  destruct b.
  - rewrite (copied_iff decls exported i G). assert (type_asked pkg (i_marks i)) by now apply Hb. tauto.
  - split; [discriminate|]. intros (H & _). apply Hb in H. discriminate.
Qed.

Lemma entries_names all l : NoDup (map i_name l) -> NoDup (map fst (flat_map (entry all) l)).
Proof.
  induction l as [|i l IH]; intros Nd; [constructor|]. cbn [flat_map map] in *. apply NoDup_cons_iff in Nd. destruct Nd as [Ni Nd]. specialize (IH Nd).
  rewrite map_app. assert (E : map fst (entry all i) = [] \/ map fst (entry all i) = [i_name i]).
  { unfold ObjectProofs.entry. destruct (dueb decls exported all i); [|now left]. destruct (gen_methods decls steps (i_name i)) as [[gm ds]|]; [|now left].
    destruct (no_code (made_code i gm)); [now left|now right]. }
  destruct E as [-> | ->]; [exact IH|]. cbn [app]. constructor; [|exact IH]. intros X. apply in_map_iff in X. destruct X as ([n c] & E & X). cbn in E. subst n.
  apply in_flat_map in X. destruct X as (j & Hj & X). apply entry_name in X. apply Ni. rewrite X. now apply in_map.
Qed.

Lemma result_inv out errs :
  generate_for_package decls exported home letter digit steps rounds torder porder name_of formats root (Some pkg) (Some is) = Done (out, errs) ->
  exists all types l r, (all = true <-> package_asked pkg) /\
    by_code types = flat_map (entry all) is /\ NoDup (map fst types) /\
    (forall i, In i is -> dueb decls exported all i = true -> gen_methods decls steps (i_name i) <> None) /\
    need_imports letter digit rounds (no_imports root) (entry_paths home (flat_map (entry all) is)) = Some (l, r) /\
    (forall n m p a, In (n, m) types -> w_object m = Some (p, a) -> mget word_eqb (by_path l) runtime_path = Some a) /\
    match out with
    | None => types = [] /\ errs = flat_map (errs_of all) is
    | Some f => types <> [] /\ f_imports f = import_specs name_of porder l /\ f_methods f = write_methods torder types /\
                exists e, errs = flat_map (errs_of all) is ++ e /\ (e = [] \/ e = [EFormat])
    end.
Proof using Tp N.
  unfold generate_for_package. destruct (package_run pkg Tp) as (all & -> & A). cbn [bind].
  destruct (all_types _ _ _ _ _ _ _ all is _) as [s| |] eqn:E; try discriminate. cbn [bind].
  destruct (all_types_run _ _ _ _ _ _ _ _ _ _ _ E N) as (T & Er & Gm & (r & P) & O); [intros i _ []|intros ? ? ? ? []|]. cbn [g_types g_errs g_imports app by_code map] in *.
  intros H. exists all, (g_types s), (g_imports s), r. split; [exact A|]. split; [exact T|]. split.
  { rewrite <- by_code_names, T. now apply entries_names. }
  split; [exact Gm|]. split; [exact P|]. split; [exact O|].
  destruct (g_types s) as [|x t] eqn:Es.
  - injection H as <- <-. split; [reflexivity|exact Er].
  - injection H as <- <-. cbn [f_imports f_methods]. split; [discriminate|]. split; [reflexivity|]. split; [reflexivity|].
    eexists. split; [rewrite Er; reflexivity|]. destruct (formats _); [now left|now right].
Qed.

Lemma methods_in out types : NoDup (map fst types) ->
  match out with None => types = [] | Some f => f_methods f = write_methods torder types end ->
  forall n m, In (n, m) (methods out) <-> In (n, m) types.
Proof.
  intros Nd H n m. destruct out as [f|]; cbn [methods].
  - rewrite H. now apply write_in.
  - rewrite H. reflexivity.
Qed.

Lemma entry_in all i c n : In (n, c) (entry all i) <->
  n = i_name i /\ dueb decls exported all i = true /\ exists gm ds, gen_methods decls steps n = Some (gm, ds) /\ c = made_code i gm /\ no_code c = false.
Proof.
  unfold ObjectProofs.entry. split.
  - destruct (dueb decls exported all i); [|easy]. destruct (gen_methods decls steps (i_name i)) as [[gm ds]|] eqn:E; [|easy].
    destruct (no_code (made_code i gm)) eqn:Nc; [easy|]. intros [[= <- <-]|[]]. split; [easy|]. split; [easy|]. now exists gm, ds.
  - intros (-> & -> & gm & ds & E & -> & Nc). rewrite E, Nc. now left.
Qed.

Lemma code_completes i m gm ds : typed (i_marks i) -> gen_methods decls steps (i_name i) = Some (gm, ds) -> code_of m = made_code i gm ->
  completes decls i m.
Proof.
  intros T E C. assert (Ec := gen_methods_copy _ _ _ _ _ E). assert (Ei := gen_methods_into _ _ _ _ _ E).
  unfold code_of, made_code in C. injection C as C1 C2 C3. unfold completes.
  destruct (object_run _ T) as (o & Eo & Ho). unfold is_object in C3. rewrite Eo in C3. rewrite Ec in C2, C3.
  split; [|split].
  - rewrite C1. destruct (d_into (decls (i_name i))); [rewrite Ei; easy|]. destruct Ei as (b & ->). easy.
  - rewrite C2. destruct (d_copy (decls (i_name i))); easy.
  - rewrite <- Ho. destruct (d_copy (decls (i_name i))) as [p|].
    + destruct (w_object m); [discriminate|]. split; [easy|now intros (_ & H)].
    + destruct o; destruct (w_object m); try discriminate; split; try easy; now intros (H & _).
Qed.

Lemma made_no_code i gm ds : gen_methods decls steps (i_name i) = Some (gm, ds) ->
  (no_code (made_code i gm) = false <-> d_copy (decls (i_name i)) = None \/ d_into (decls (i_name i)) = false).
Proof.
  intros E. assert (Ec := gen_methods_copy _ _ _ _ _ E). assert (Ei := gen_methods_into _ _ _ _ _ E). unfold made_code.
  rewrite Ec. destruct (d_into (decls (i_name i))).
  - rewrite Ei. destruct (d_copy (decls (i_name i))) as [p|]; cbn; [split; [discriminate|]|split; [now left|reflexivity]]. now intros [H|H].
  - destruct Ei as (b & ->). cbn. split; [now right|reflexivity].
Qed.
End Result.

(** ** The types that are written *)

Section Names.
Variable decls : string -> decl.
Variable ok : string -> Prop.
Definition fine (t : ty) : Prop := forall n, In n (mentions t) -> ok n.
Hypothesis Hd : forall n, fine (d_under (decls n)).

Definition named_fine (r : res) : Prop := match r with Some (ss, _) => forall n, In n (body_names ss) -> ok n | None => True end.

Lemma fine_type_names t : fine t -> forall n, In n (type_names t) -> ok n.
Proof.
  induction t as [b s|m|e IH|e IH|k IHk e IHe|fs|s] using ty_ind; intros F n H; cbn in H; try contradiction; try (apply F; exact H).
  - apply IH; assumption.
  - apply IH; assumption.
  - apply in_app_or in H. destruct H as [H|H]; [apply IHk|apply IHe]; try exact H; intros x Hx; apply F; cbn; apply in_or_app; [now left|now right].
Qed.

Lemma fine_under t : fine t -> fine (under decls t).
Proof. destruct t; try easy. intros _. apply Hd. Qed.

Lemma body_app a b : body_names (a ++ b) = body_names a ++ body_names b.
Proof. apply flat_map_app. Qed.

Lemma seq2_fine a b : named_fine a -> named_fine b -> named_fine (seq2 a b).
Proof.
  destruct a as [[s1 e1]|]; [|easy]. destruct b as [[s2 e2]|]; [|easy]. cbn. intros H1 H2 n H. rewrite body_app in H.
  apply in_app_or in H. destruct H; auto.
Qed.
Lemma wrap_fine f r : (forall ss n, In n (body_names (f ss)) -> In n (body_names ss)) -> named_fine r -> named_fine (wrap f r).
Proof. destruct r as [[ss es]|]; [|easy]. cbn. intros Hf H n Hn. apply H. now apply Hf. Qed.

Lemma fine_field fs f : fine (TStruct fs) -> In f fs -> fine f.
Proof.
  intros F Hf n Hn. apply F. cbn. induction fs as [|g fs IH]; [destruct Hf|]. apply in_or_app. destruct Hf as [->|Hf]; [now left|]. right.
  apply IH; [|exact Hf]. intros x Hx. apply F. cbn. apply in_or_app. now right.
Qed.

Lemma step_fine n block t : (forall t, fine t -> named_fine (block t)) -> fine t -> named_fine (gen_step decls n block t).
Proof.
  intros Hb F. unfold gen_step. assert (Fu := fine_under _ F).
  destruct (negb (is_ptr (under decls t)) && has_any decls t); [intros x []|].
  destruct (under decls t) as [bad s|m|e|e|k e|fs|s] eqn:U.
  - destruct bad; [intros x []|]. apply seq2_fine; [|intros x []]. destruct (has_copy decls t); intros x [].
  - intros x [].
  - (* pointer *)
    assert (Fe : fine e) by exact Fu. assert (Fue := fine_under _ Fe). unfold gen_pointer. destruct (has_any decls e).
    + destruct (result_ptr decls n e (has_copy decls e)) as [q|]; [|exact I]. destruct (match has_copy decls e with Some p => p | None => q end); intros x [].
    + destruct (shallow decls n (under decls e)) as [[|]|]; [| |exact I].
      * cbn. intros x Hx. rewrite !app_nil_r in Hx. now apply (fine_type_names e).
      * destruct (by_ref (under decls e)).
        -- apply seq2_fine; [cbn; intros x Hx; rewrite app_nil_r in Hx; now apply (fine_type_names _ Fue)|].
           apply wrap_fine; [|apply Hb; exact Fue]. intros ss x Hx. cbn in Hx. now rewrite app_nil_r in Hx.
        -- destruct (under decls e); try (intros x []). cbn. intros x Hx. rewrite !app_nil_r in Hx. now apply (fine_type_names e).
  - (* slice *)
    assert (Fe : fine e) by exact Fu. unfold gen_slice. apply seq2_fine.
    { cbn. intros x Hx. rewrite app_nil_r in Hx. now apply (fine_type_names t). }
    destruct (has_any decls e); [intros x []|]. destruct (shallow decls n (under decls e)) as [[|]|]; [intros x []| |exact I].
    apply wrap_fine; [intros ss x Hx; cbn in Hx; now rewrite app_nil_r in Hx|].
    destruct (by_ref (under decls e) || false).
    + apply wrap_fine; [|apply Hb; exact Fe]. intros ss x Hx. cbn in Hx. now rewrite app_nil_r in Hx.
    + destruct (under decls e); intros x [].
  - (* map *)
    assert (Fk : fine k) by (intros x Hx; apply Fu; cbn; apply in_or_app; now left).
    assert (Fe : fine e) by (intros x Hx; apply Fu; cbn; apply in_or_app; now right). assert (Fue := fine_under _ Fe).
    unfold gen_map. destruct (shallow decls n k) as [[|]|]; [|intros x []|exact I]. apply seq2_fine.
    { cbn. intros x Hx. rewrite app_nil_r in Hx. now apply (fine_type_names t). }
    apply wrap_fine; [intros ss x Hx; cbn in Hx; now rewrite app_nil_r in Hx|].
    unfold gen_map_body. destruct (has_any decls e).
    + destruct (result_ptr decls n e (has_copy decls e)) as [q|]; [|exact I].
      destruct (Bool.eqb _ (is_ptr e)); [intros x []|]. destruct (is_ptr e); intros x [].
    + destruct (shallow decls n e) as [[|]|]; [intros x []| |exact I]. destruct (by_ref (under decls e)).
      * apply seq2_fine; [cbn; intros x Hx; rewrite app_nil_r in Hx; now apply (fine_type_names _ Fue)|].
        apply wrap_fine; [|apply Hb; exact Fe]. intros ss x Hx. cbn in Hx. now rewrite !app_nil_r in Hx.
      * destruct (under decls e); intros x [].
  - (* struct *)
    unfold gen_struct. apply seq2_fine; [intros x []|].
    assert (Ff : forall f, In f fs -> fine f) by (intros f Hf; now apply (fine_field fs)). clear U F Fu. generalize 0.
    induction fs as [|f fs IH]; intros i; [intros x []|]. cbn [gen_fields].
    assert (Fl : match gen_field decls n block i f with Some (ss, _, _) => forall x, In x (body_names ss) -> ok x | None => True end).
    { assert (Fd : named_fine (wrap (fun b => [SIfSome (in_f i) (SInOut (EAddr (in_f i)) (EAddr (out_f i)) :: b)]) (block f))).
      { apply wrap_fine; [|apply Hb, Ff; now left]. intros ss x Hx. cbn in Hx. now rewrite app_nil_r in Hx. }
      unfold gen_field. destruct (has_any decls f).
      - destruct (result_ptr decls n f (has_copy decls f)) as [q|]; [|exact I]. destruct (is_ptr f).
        + destruct (wrap _ (block f)) as [[ss es]|]; [exact Fd|exact I].
        + destruct (Bool.eqb q false); intros x [].
      - destruct (by_ref (under decls f)).
        + destruct (wrap _ (block f)) as [[ss es]|]; [exact Fd|exact I].
        + destruct (under decls f) as [[|] ?| | | | | |]; try (intros x []). destruct (shallow decls n f) as [[|]|]; [intros x []|intros x []|exact I]. }
    destruct (gen_field decls n block i f) as [[[ss es] stop]|]; [|exact I]. destruct stop; [exact Fl|].
    apply seq2_fine; [exact Fl|]. apply IH. intros g Hg. apply Ff. now right.
  - intros x [].
Qed.

Lemma block_fine k : forall t, fine t -> named_fine (gen_block decls k t).
Proof. induction k as [|k IH]; intros t F; [exact I|]. cbn [gen_block]. now apply step_fine. Qed.

Lemma methods_fine k n gm ds p b : ok n -> gen_methods decls k n = Some (gm, ds) -> m_into gm = IntoGen p b -> forall m, In m (body_names b) -> ok m.
Proof.
  intros On. unfold gen_methods. destruct (d_into (decls n)); [intros [= <- _]; discriminate|]. destruct (d_copy (decls n)) as [[|]|].
  - intros [= <- _] [= <- <-] m [].
  - intros [= <- _] [= <- <-] m [].
  - assert (B := block_fine k (TNamed n)). destruct (gen_block decls k (TNamed n)) as [[ss es]|]; [|discriminate]. intros [= <- _] [= <- <-]. apply B.
    intros x [<-|[]]. exact On.
Qed.
End Names.
