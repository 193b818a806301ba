(** * The object generator: proofs *)

From Coq Require Import String Ascii List Bool Arith Lia Permutation Sorted.
Import ListNotations.
From Verif Require Import GoLib GoLibFacts MapFacts DeepModel DeepSpec ImportModel ImportSpec ImportProofs ObjectModel ObjectSpec.
Open Scope string_scope.
Open Scope nat_scope.
Open Scope list_scope.

(** ** Markers *)

Lemma get_first v name x : NoDup (map fst v) -> (get v name = Some x <-> first v name x).
Proof.
  intros N. unfold get, first. split.
  - destruct (mget String.eqb v name) as [[|y l]|] eqn:E; try discriminate. intros [= ->]. exists l. now apply (mget_in _ _ _ String.eqb_eq).
  - intros (l & H). now rewrite (in_mget _ _ _ String.eqb_eq v name (x :: l) N H).
Qed.

Lemma get_absent v name : NoDup (map fst v) -> (get v name = None <-> absent v name).
Proof.
  intros N. unfold get, absent. split.
  - intros H l Hl. rewrite (in_mget _ _ _ String.eqb_eq v name l N Hl) in H. now destruct l.
  - intros H. destruct (mget String.eqb v name) as [[|y l]|] eqn:E; try reflexivity.
    apply (mget_in _ _ _ String.eqb_eq) in E. apply H in E. discriminate.
Qed.

Lemma first_absent v name x : first v name x -> absent v name -> False.
Proof. intros (l & H) A. apply A in H. discriminate. Qed.

Lemma first_unique v name x y : NoDup (map fst v) -> first v name x -> first v name y -> x = y.
Proof. intros N Hx Hy. apply (get_first _ _ _ N) in Hx. apply (get_first _ _ _ N) in Hy. congruence. Qed.

Lemma object_run v : typed v -> exists b, object_interface v = Done b /\ (b = true <-> object_asked v).
Proof.
  intros T. assert (N := ty_names _ T). unfold object_interface, object_asked.
  destruct (get v root_name) as [x|] eqn:E.
  - apply (get_first _ _ _ N) in E. destruct (ty_root _ T x E) as (b & ->). exists b. split; [reflexivity|]. split.
    + intros ->. now left.
    + intros [H|(H & _)]; [|destruct (first_absent _ _ _ E H)]. assert (Q := first_unique _ _ _ _ N E H). now injection Q.
  - apply (get_absent _ _ N) in E. eexists. split; [reflexivity|]. rewrite existsb_exists. split.
    + intros (x & Hx & H). right. split; [easy|]. destruct x as [| |s|]; try discriminate. apply String.eqb_eq in H. subst s.
      destruct (mget String.eqb v interfaces_name) as [l|] eqn:G; [|destruct Hx]. exists l. split; [now apply (mget_in _ _ _ String.eqb_eq)|easy].
    + intros [H|(_ & l & Hl & H)]; [destruct (first_absent _ _ _ H E)|].
      exists (VText runtime_object). rewrite (in_mget _ _ _ String.eqb_eq v interfaces_name l N Hl). split; [easy|apply String.eqb_refl].
Qed.

Lemma split_head s : hd "" (split_char ","%char s) = "package" <-> s = "package" \/ exists r, s = ("package," ++ r)%string.
Proof.
  assert (G : forall p s, (forall x a y, p = (x ++ String a y)%string -> a <> ","%char) ->
    (hd "" (split_char ","%char s) = p <-> s = p \/ exists r, s = (p ++ String ","%char r)%string)).
  { clear s. induction p as [|a p IH]; intros s Hp.
    - destruct s as [|b s]; cbn; [split; [now left|reflexivity]|].
      destruct (Ascii.eqb_spec b ","%char) as [->|Ne]; cbn.
      + split; [intros _; right; now exists s|reflexivity].
      + split.
        * destruct (split_char ","%char s); cbn; discriminate.
        * intros [H|(r & [= H _])]; [discriminate|easy].
    - assert (Ha : a <> ","%char) by exact (Hp ""%string a p eq_refl).
      destruct s as [|b s]; cbn; [split; [discriminate|intros [H|(r & H)]; discriminate]|].
      destruct (Ascii.eqb_spec b ","%char) as [->|Ne]; cbn.
      + split; [discriminate|]. intros [[= H _]|(r & [= H _])]; congruence.
      + assert (IH' := IH s). assert (Hp' : forall x a' y, p = (x ++ String a' y)%string -> a' <> ","%char)
          by (intros x a' y ->; apply (Hp (String a x) a' y eq_refl)). specialize (IH' Hp').
        assert (E : hd "" (match split_char ","%char s with [] => [String b ""] | x :: xs => String b x :: xs end) = String b (hd "" (split_char ","%char s)))
          by now destruct (split_char ","%char s).
        rewrite E. split.
        * intros [= -> H]. apply IH' in H. destruct H as [->|(r & ->)]; [now left|right; now exists r].
        * intros [[= -> H]|(r & [= -> H])]; f_equal; apply IH'; [now left|right; now exists r]. }
  rewrite (G "package" s).
  - reflexivity.
  - intros x a y H ->.
    assert (C : forall x, "package"%string <> (x ++ String ","%char y)%string).
    { intros z Hz. do 7 (destruct z as [|? z]; [discriminate Hz|injection Hz as _ Hz]). destruct z; discriminate. }
    exact (C x H).
Qed.

Lemma package_run v : typed v -> exists b, enabled_on_package v = Done b /\ (b = true <-> package_asked v).
Proof.
  intros T. assert (N := ty_names _ T). unfold enabled_on_package, package_asked.
  destruct (get v generate_name) as [x|] eqn:E.
  - apply (get_first _ _ _ N) in E. destruct (ty_generate _ T x E) as (b & ->). exists b. split; [reflexivity|]. split.
    + intros ->. now left.
    + intros [H|(H & _)]; [|destruct (first_absent _ _ _ E H)]. assert (Q := first_unique _ _ _ _ N E H). now injection Q.
  - apply (get_absent _ _ N) in E. destruct (get v legacy_name) as [x|] eqn:E'.
    + apply (get_first _ _ _ N) in E'. destruct (ty_legacy _ T x E') as (s & ->). cbn [as_raw bind]. eexists. split; [reflexivity|].
      rewrite String.eqb_eq, split_head. split.
      * intros H. right. split; [easy|]. now exists s.
      * intros [H|(_ & s' & H & Hs)]; [destruct (first_absent _ _ _ H E)|]. assert (Q := first_unique _ _ _ _ N E' H). now injection Q as ->.
    + apply (get_absent _ _ N) in E'. exists false. split; [reflexivity|]. split; [discriminate|].
      intros [H|(_ & s & H & _)]; [destruct (first_absent _ _ _ H E)|destruct (first_absent _ _ _ H E')].
Qed.

Lemma type_run pkg v all : typed v -> (all = true <-> package_asked pkg) ->
  exists b, enabled_on_type all v = Done b /\ (b = true <-> type_asked pkg v).
Proof.
  intros T A. assert (N := ty_names _ T). unfold enabled_on_type, type_asked.
  destruct (get v generate_name) as [x|] eqn:E.
  - apply (get_first _ _ _ N) in E. destruct (ty_generate _ T x E) as (b & ->). exists b. split; [reflexivity|]. split.
    + intros ->. now left.
    + intros [H|[(H & _)|(H & _)]]; try destruct (first_absent _ _ _ E H). assert (Q := first_unique _ _ _ _ N E H). now injection Q.
  - apply (get_absent _ _ N) in E. destruct (get v legacy_name) as [x|] eqn:E'.
    + apply (get_first _ _ _ N) in E'. destruct (ty_legacy _ T x E') as (s & ->). cbn [as_raw bind]. eexists. split; [reflexivity|].
      rewrite String.eqb_eq. split.
      * intros ->. right. left. easy.
      * intros [H|[(_ & H)|(_ & H & _)]]; [destruct (first_absent _ _ _ H E)| |destruct (first_absent _ _ _ E' H)].
        assert (Q := first_unique _ _ _ _ N E' H). now injection Q as ->.
    + apply (get_absent _ _ N) in E'.
      assert (Q : (first v generate_name (VBool true) \/ (absent v generate_name /\ first v legacy_name (VRaw "true")) \/
                   absent v generate_name /\ absent v legacy_name /\ (package_asked pkg \/ object_asked v)) <-> package_asked pkg \/ object_asked v).
      { split; [|intros H; right; right; easy]. intros [H|[(_ & H)|(_ & _ & H)]]; [destruct (first_absent _ _ _ H E)|destruct (first_absent _ _ _ H E')|exact H]. }
      destruct all.
      * exists true. split; [reflexivity|]. rewrite Q. split; [intros _; left; now apply A|reflexivity].
      * destruct (object_run v T) as (b & Eb & Hb). exists b. split; [easy|]. rewrite Q, Hb. split; [now right|]. intros [H|H]; [|easy].
        apply A in H. discriminate.
Qed.

(** ** Names in code *)

Lemma type_names_iff n t : In n (type_names t) <-> in_type n t.
Proof.
  split.
  - induction t; cbn; intros H; try now destruct H.
    + destruct H as [<-|[]]. constructor.
    + constructor. now apply IHt.
    + constructor. now apply IHt.
    + apply in_app_or in H. destruct H; [now apply it_key, IHt1|now apply it_elem, IHt2].
  - induction 1; cbn; auto using in_or_app.
Qed.

Lemma expr_names_iff n e : In n (expr_names e) <-> in_expr n e.
Proof.
  split.
  - destruct e; cbn; intros H; try (now destruct H); constructor; now apply type_names_iff.
  - intros H. destruct H; cbn; now apply type_names_iff.
Qed.

Lemma stmt_names_iff n s : In n (stmt_names s) <-> in_stmt n s.
Proof.
  split.
  - revert s. fix F 1. intros s.
    assert (B : forall b : list stmt, (fix all (b : list stmt) : Prop := match b with [] => True | x :: b' => (In n (stmt_names x) -> in_stmt n x) /\ all b' end) b ->
                In n (flat_map stmt_names b) -> exists x, In x b /\ in_stmt n x).
    { induction b as [|x b IH]; intros A H; [destruct H|]. destruct A as [A A']. cbn [flat_map] in H. apply in_app_or in H.
      destruct H as [H|H]; [exists x; split; [now left|now apply A]|]. destruct (IH A' H) as (y & Iy & Hy). exists y. split; [now right|exact Hy]. }
    destruct s as [l e|l x e|x t|x e|e1 e2|l b|l b1 b2|l b|l b|l1 l2|l e|b]; cbn [stmt_names]; intros H.
    + now apply is_set, expr_names_iff.
    + now apply is_set_map, expr_names_iff.
    + now apply is_var, type_names_iff.
    + now apply is_let, expr_names_iff.
    + apply in_app_or in H. destruct H; [now apply is_in, expr_names_iff|now apply is_out, expr_names_iff].
    + destruct (B b) as (y & Iy & Hy); [|exact H|now apply is_some with y]. clear H. induction b as [|y b IH]; [exact I|split; [apply F|exact IH]].
    + apply in_app_or in H. destruct H as [H|H].
      * destruct (B b1) as (y & Iy & Hy); [|exact H|now apply is_nil with y]. clear H. induction b1 as [|y b IH]; [exact I|split; [apply F|exact IH]].
      * destruct (B b2) as (y & Iy & Hy); [|exact H|now apply is_else with y]. clear H. induction b2 as [|y b IH]; [exact I|split; [apply F|exact IH]].
    + destruct (B b) as (y & Iy & Hy); [|exact H|now apply is_for_map with y]. clear H. induction b as [|y b IH]; [exact I|split; [apply F|exact IH]].
    + destruct (B b) as (y & Iy & Hy); [|exact H|now apply is_for_slice with y]. clear H. induction b as [|y b IH]; [exact I|split; [apply F|exact IH]].
    + destruct H.
    + now apply is_into, expr_names_iff.
    + destruct (B b) as (y & Iy & Hy); [|exact H|now apply is_block with y]. clear H. induction b as [|y b IH]; [exact I|split; [apply F|exact IH]].
  - induction 1; cbn [stmt_names]; rewrite ?in_app_iff; try (left; now apply expr_names_iff); try (right; now apply expr_names_iff); try now apply expr_names_iff.
    + now apply type_names_iff.
    + apply in_flat_map. now exists s.
    + left. apply in_flat_map. now exists s.
    + right. apply in_flat_map. now exists s.
    + apply in_flat_map. now exists s.
    + apply in_flat_map. now exists s.
    + apply in_flat_map. now exists s.
Qed.

Lemma body_names_iff n b : In n (body_names b) <-> exists s, In s b /\ in_stmt n s.
Proof.
  unfold body_names. rewrite in_flat_map. split; intros (s & I & H); exists s; (split; [exact I|now apply stmt_names_iff]).
Qed.

(** ** Imports *)

Section Need.
Variable letter digit : nat -> bool.
Notation need_import := (need_import letter digit).
Notation need_imports := (need_imports letter digit).

Lemma needs_app n a b : forall l, need_imports n l (a ++ b) =
  match need_imports n l a with
  | Some (l1, r1) => match need_imports n l1 b with Some (l2, r2) => Some (l2, r1 ++ r2) | None => None end
  | None => None
  end.
Proof.
  induction a as [|p a IH]; intros l; cbn [app ImportModel.need_imports].
  - now destruct (need_imports n l b) as [[l2 r2]|].
  - destruct (need_import n l p) as [[l1 x]|]; [|reflexivity]. rewrite IH.
    destruct (need_imports n l1 a) as [[l2 r2]|]; [|reflexivity]. now destruct (need_imports n l2 b) as [[l3 r3]|].
Qed.

(** The paths that are imported are those asked for. *)
Lemma need_keys n l p l1 a : need_import n l p = Some (l1, a) ->
  forall q, In q (map fst (by_path l1)) <-> q = no_vendor p \/ In q (map fst (by_path l)).
Proof.
  unfold ImportModel.need_import. intros H q.
  assert (S : forall x, In q (map fst (mset word_eqb (by_path l) (no_vendor p) x)) <-> q = no_vendor p \/ In q (map fst (by_path l))).
  { intros x. rewrite (mset_keys _ _ _ word_eqb_eq). split; intros [->|]; auto. }
  destruct (mget word_eqb (by_path l) (no_vendor p)) as [b|] eqn:Eb.
  - injection H as <- _. split; [now right|]. intros [->|]; [|easy]. apply (mget_in _ _ _ word_eqb_eq) in Eb. apply in_map_iff. now exists (no_vendor p, b).
  - destruct (no_vendor p) as [|c r].
    + injection H as <- _. apply S.
    + destruct (path_split (c :: r)) as (rest, next). destruct (pick letter digit n _ _ _ _ _); [|discriminate]. injection H as <- _. apply S.
Qed.

Lemma needs_keys n ps : forall l l1 r, need_imports n l ps = Some (l1, r) ->
  forall q, In q (map fst (by_path l1)) <-> (exists p, In p ps /\ q = no_vendor p) \/ In q (map fst (by_path l)).
Proof.
  induction ps as [|p ps IH]; intros l l1 r H q; cbn [ImportModel.need_imports] in H.
  - injection H as <- _. split; [now right|]. intros [(p & [] & _)|]; easy.
  - destruct (need_import n l p) as [[l2 a]|] eqn:E; [|discriminate]. destruct (need_imports n l2 ps) as [[l3 r3]|] eqn:E2; [|discriminate].
    injection H as <- _. rewrite (IH _ _ _ E2 q), (need_keys _ _ _ _ _ E q). split.
    + intros [(x & Hx & ->)|[->|H]]; [left; exists x; split; [now right|easy]|left; exists p; split; [now left|easy]|now right].
    + intros [(x & [->|Hx] & ->)|H]; [right; now left|left; now exists x|right; now right].
Qed.
End Need.

(** ** Types *)

Section Object.
Variable decls : string -> decl.
Variable exported : string -> bool.
Variable home : string -> place.
Variable letter digit : nat -> bool.
Variable steps rounds : nat.
Notation gen_methods := (gen_methods decls steps).
Notation should_be_copied := (should_be_copied decls exported).
Notation use_names := (use_names home letter digit rounds).
Notation generate_methods_for := (generate_methods_for decls home letter digit steps rounds).
Notation one_type := (one_type decls exported home letter digit steps rounds).
Notation all_types := (all_types decls exported home letter digit steps rounds).
Notation need_imports := (need_imports letter digit rounds).

Lemma copied_iff i : go_decls decls ->
  (fst (should_be_copied i) = true <-> exported (i_name i) = true /\ i_type i = Defined /\ copyable decls (i_name i)).
Proof using decls exported.
  clear letter digit steps rounds home. intros (Gu & Gp). unfold ObjectModel.should_be_copied. destruct (exported (i_name i)); cbn [negb]; [|split; [discriminate|now intros (H & _)]].
  destruct (i_type i); try (split; [discriminate|now intros (_ & H & _)]).
  assert (M : forall n, has_any decls (TNamed n) = true <-> manual decls n).
  { intros n. unfold has_any, manual, has_copy, has_into. cbn [method_base]. destruct (d_copy (decls n)).
    - split; [intros _; now left|reflexivity].
    - split; [now right|]. intros [H|H]; [now destruct H|exact H]. }
  unfold copyable. destruct (d_under (decls (i_name i))) as [bad s|m|e|e|k e|fs|s] eqn:U; cbn [fst].
  - assert (Hb : has_any decls (TBasic bad s) = false) by reflexivity. rewrite Hb. rewrite <- M.
    destruct (has_any decls (TNamed (i_name i))); cbn; split; try easy.
  - destruct (Gu _ _ U).
  - assert (He : has_any decls (TPtr e) = true <-> exists m, e = TNamed m /\ manual decls m /\ forall e', d_under (decls m) <> TPtr e').
    { destruct e as [| m| | | | |]; try (split; [discriminate|intros (m & H & _); discriminate]).
      assert (E : has_any decls (TPtr (TNamed m)) = match d_under (decls m) with TPtr _ => false | _ => has_any decls (TNamed m) end).
      { unfold has_any, has_copy, has_into. cbn [method_base]. destruct (d_under (decls m)); reflexivity. }
      rewrite E. split.
      - intros H. exists m. split; [easy|]. rewrite <- M. destruct (d_under (decls m)); easy.
      - intros (m' & [= <-] & H & Hn). rewrite <- M in H. destruct (d_under (decls m)) as [| |x| | | |]; try easy. now destruct (Hn x). }
    rewrite He. tauto.
  - destruct (has_any decls (TNamed (i_name i))), (has_any decls (TSlice e)); cbn; easy.
  - destruct (has_any decls (TNamed (i_name i))), (has_any decls (TMap k e)); cbn; easy.
  - destruct (has_any decls (TNamed (i_name i))), (has_any decls (TStruct fs)); cbn; easy.
  - destruct (has_any decls (TNamed (i_name i))), (has_any decls (TOther s)); cbn; easy.
Qed.

(** What a type gets, as far as it does not depend on the others. *)
Definition code : Type := option (bool * list stmt) * option bool * option bool.
Definition code_of (m : written) : code := (w_into m, w_copy m, option_map fst (w_object m)).
Definition is_object (i : info) : bool := match object_interface (i_marks i) with Done b => b | _ => false end.
Definition made_code (i : info) (gm : meths) : code :=
  (match m_into gm with IntoGen p b => Some (p, b) | _ => None end,
   match m_copy gm with CopyGen p => Some p | _ => None end,
   match m_copy gm with CopyGen p => if is_object i then Some p else None | _ => None end).
Definition no_code (c : code) : bool := match c with (None, None, None) => true | _ => false end.

Definition abroad_of (ns : list string) : list word := flat_map (fun n => match home n with Foreign p => [p] | _ => [] end) ns.
Definition paths_of (c : code) : list word :=
  let '(into, _, obj) := c in
  abroad_of (match into with Some (_, b) => body_names b | None => [] end) ++
  match obj with Some _ => [runtime_path] | None => [] end.

Lemma use_names_paths ns : forall l l', use_names l ns = Done l' -> exists r, need_imports l (abroad_of ns) = Some (l', r).
Proof.
  induction ns as [|n ns IH]; intros l l'; cbn [ObjectModel.use_names abroad_of flat_map].
  - intros [= ->]. now exists [].
  - destruct (home n) as [|p|]; [apply IH| |discriminate]. intros H. cbn [app ImportModel.need_imports].
    destruct (need_import letter digit rounds l p) as [[l1 a]|]; [|discriminate]. destruct (IH _ _ H) as (r & E). unfold abroad_of in E. rewrite E. now exists (a :: r).
Qed.

Lemma methods_run i l m es l' : generate_methods_for i l = Done (m, es, l') ->
  exists gm ds r, gen_methods (i_name i) = Some (gm, ds) /\ es = map (EGen (i_name i)) ds /\
    code_of m = made_code i gm /\ need_imports l (paths_of (code_of m)) = Some (l', r) /\
    (forall p a, w_object m = Some (p, a) -> exists l1, need_import letter digit rounds l1 runtime_path = Some (l', a)).
Proof.
  unfold ObjectModel.generate_methods_for. destruct (gen_methods (i_name i)) as [[gm ds]|] eqn:G; [|discriminate].
  intros H. exists gm, ds. unfold bind in H.
  destruct (use_names l _) as [l1| |] eqn:U in H; try discriminate.
  apply use_names_paths in U. destruct U as (r1 & U).
  unfold made_code, is_object. destruct (m_copy gm) as [|p|p] eqn:C.
  - injection H as <- <- <-. exists r1. repeat (split; [reflexivity|]). split; [|discriminate].
    unfold code_of, paths_of. cbn [w_into w_object option_map]. now rewrite app_nil_r.
  - injection H as <- <- <-. exists r1. repeat (split; [reflexivity|]). split; [|discriminate].
    unfold code_of, paths_of. cbn [w_into w_object option_map]. now rewrite app_nil_r.
  - destruct (object_interface (i_marks i)) as [o| |]; try discriminate. destruct o.
    + destruct (need_import letter digit rounds l1 runtime_path) as [[l2 a]|] eqn:E; [|discriminate]. injection H as <- <- <-.
      exists (r1 ++ [a]). repeat (split; [reflexivity|]). split.
      * unfold code_of, paths_of. cbn [w_into w_object option_map fst]. rewrite needs_app, U. cbn [ImportModel.need_imports]. now rewrite E.
      * intros p' a' [= <- <-]. now exists l1.
    + injection H as <- <- <-. exists r1. repeat (split; [reflexivity|]). split; [|discriminate].
      unfold code_of, paths_of. cbn [w_into w_object option_map]. now rewrite app_nil_r.
Qed.

(** Whether a type is due, by the code. *)
Definition dueb (all : bool) (i : info) : bool :=
  match enabled_on_type all (i_marks i) with Done true => fst (should_be_copied i) | _ => false end.
Definition entry (all : bool) (i : info) : list (string * code) :=
  if dueb all i then
    match gen_methods (i_name i) with
    | Some (gm, _) => if no_code (made_code i gm) then [] else [(i_name i, made_code i gm)]
    | None => []
    end
  else [].
Definition errs_of (all : bool) (i : info) : list gerr :=
  match enabled_on_type all (i_marks i) with
  | Done true =>
      if fst (should_be_copied i)
      then match gen_methods (i_name i) with Some (_, ds) => map (EGen (i_name i)) ds | None => [] end
      else snd (should_be_copied i)
  | _ => []
  end.
Definition by_code (l : list (string * written)) : list (string * code) := map (fun nm => (fst nm, code_of (snd nm))) l.
Definition entry_paths (e : list (string * code)) : list word := flat_map (fun nc => paths_of (snd nc)) e.

Lemma nothing_code m : nothing m = no_code (code_of m).
Proof. destruct m as [[[p b]|] [q|] [[r a]|]]; reflexivity. Qed.

Lemma no_code_paths c : no_code c = true -> paths_of c = [].
Proof. destruct c as [[[[p b]|] [q|]] [r|]]; try discriminate. reflexivity. Qed.

Lemma one_type_run all i s s' : one_type all i s = Done s' -> ~ In (i_name i) (map fst (g_types s)) ->
  by_code (g_types s') = by_code (g_types s) ++ entry all i /\
  g_errs s' = g_errs s ++ errs_of all i /\
  (dueb all i = true -> gen_methods (i_name i) <> None) /\
  (exists r, need_imports (g_imports s) (entry_paths (entry all i)) = Some (g_imports s', r)) /\
  (forall n m, In (n, m) (g_types s') -> In (n, m) (g_types s) \/
     (forall p a, w_object m = Some (p, a) -> exists l1, need_import letter digit rounds l1 runtime_path = Some (g_imports s', a))).
Proof.
  unfold ObjectModel.one_type, entry, errs_of, dueb. destruct (enabled_on_type all (i_marks i)) as [on| |]; try discriminate. cbn [bind].
  assert (Z : exists r, need_imports (g_imports s) (entry_paths []) = Some (g_imports s, r)) by now exists [].
  destruct on; cbn [negb].
  2:{ intros [= <-] _. rewrite !app_nil_r. repeat (split; [reflexivity|]). split; [discriminate|]. split; [exact Z|]. now left. }
  destruct (should_be_copied i) as [copied es]. cbn [fst snd]. destruct copied; cbn [negb].
  2:{ intros [= <-] _. cbn [g_types g_errs g_imports]. rewrite app_nil_r. repeat (split; [reflexivity|]). split; [discriminate|]. split; [exact Z|]. now left. }
  destruct (generate_methods_for i (g_imports s)) as [[[m es'] l']| |] eqn:E; try discriminate. cbn [bind]. intros [= <-] Hn. cbn [g_types g_errs g_imports].
  destruct (methods_run _ _ _ _ _ E) as (gm & ds & r & G & -> & C & P & O). rewrite G.
  split; [|split; [reflexivity|]]; [|split; [discriminate|split]].
  - rewrite nothing_code, C. destruct (no_code (made_code i gm)); [now rewrite app_nil_r|].
    unfold by_code. assert (Q : mset String.eqb (g_types s) (i_name i) m = g_types s ++ [(i_name i, m)]).
    { clear - Hn. revert Hn. induction (g_types s) as [|[k v] l IH]; intros Hn; [reflexivity|]. cbn [mset app]. cbn in Hn.
      destruct (String.eqb_spec (i_name i) k) as [Ek|]; [destruct Hn; left; now symmetry|]. now rewrite IH by (intros X; apply Hn; now right). }
    rewrite Q, map_app. cbn [map fst snd]. now rewrite C.
  - destruct (no_code (made_code i gm)) eqn:Nc.
    + exists []. rewrite C, (no_code_paths _ Nc) in P. cbn in P. injection P as P _. cbn. now rewrite P.
    + cbn [entry_paths flat_map snd]. rewrite app_nil_r, <- C. now exists r.
  - intros n m' H. destruct (nothing m); [now left|].
    assert (Q : In (n, m') (g_types s) \/ m' = m).
    { clear - H. revert H. induction (g_types s) as [|[k v] l IH]; cbn [mset].
      - intros [[= _ <-]|[]]. now right.
      - destruct (String.eqb (i_name i) k).
        + intros [[= _ <-]|H]; [now right|left; now right].
        + intros [H|H]; [left; now left|]. destruct (IH H); [left; now right|now right]. }
    destruct Q as [Q| ->]; [now left|right; exact O].
Qed.

Lemma need_keeps l p l1 a q b : need_import letter digit rounds l p = Some (l1, a) -> mget word_eqb (by_path l) q = Some b -> mget word_eqb (by_path l1) q = Some b.
Proof.
  unfold ImportModel.need_import. intros H Hq. destruct (mget word_eqb (by_path l) (no_vendor p)) as [c|] eqn:E; [now injection H as <- _|].
  assert (Ne : q <> no_vendor p) by (intros ->; congruence).
  destruct (no_vendor p) as [|x y].
  - injection H as <- _. cbn [by_path]. now rewrite (mget_mset_ne _ _ _ word_eqb_eq).
  - destruct (path_split (x :: y)). destruct (pick letter digit rounds _ _ _ _ _); [|discriminate]. injection H as <- _. cbn [by_path].
    now rewrite (mget_mset_ne _ _ _ word_eqb_eq).
Qed.
Lemma needs_keep ps q b : forall l l1 r, need_imports l ps = Some (l1, r) -> mget word_eqb (by_path l) q = Some b -> mget word_eqb (by_path l1) q = Some b.
Proof.
  induction ps as [|p ps IH]; intros l l1 r H Hq; cbn [ImportModel.need_imports] in H; [now injection H as <- _|].
  destruct (need_import letter digit rounds l p) as [[l2 a]|] eqn:E; [|discriminate]. destruct (need_imports l2 ps) as [[l3 r3]|] eqn:E2; [|discriminate].
  injection H as <- _. apply (IH _ _ _ E2). now apply (need_keeps _ _ _ _ _ _ E).
Qed.
Lemma need_here l p l1 a : need_import letter digit rounds l p = Some (l1, a) -> mget word_eqb (by_path l1) (no_vendor p) = Some a.
Proof.
  unfold ImportModel.need_import. intros H. destruct (mget word_eqb (by_path l) (no_vendor p)) as [c|] eqn:E; [injection H as <- <-; exact E|].
  destruct (no_vendor p) as [|x y].
  - injection H as <- <-. cbn [by_path]. apply (mget_mset_eq _ _ _ word_eqb_eq).
  - destruct (path_split (x :: y)). destruct (pick letter digit rounds _ _ _ _ _); [|discriminate]. injection H as <- <-. cbn [by_path].
    apply (mget_mset_eq _ _ _ word_eqb_eq).
Qed.

Lemma entry_name all i n c : In (n, c) (entry all i) -> n = i_name i.
Proof.
  unfold entry. destruct (dueb all i); [|easy]. destruct (gen_methods (i_name i)) as [[gm ds]|]; [|easy].
  destruct (no_code (made_code i gm)); [easy|]. intros [[= <- _]|[]]. reflexivity.
Qed.

Lemma by_code_names l : map fst (by_code l) = map fst l.
Proof. unfold by_code. now rewrite map_map. Qed.

(** All types. *)
Lemma all_types_run all is : forall s s', all_types all is s = Done s' -> NoDup (map i_name is) ->
  (forall i, In i is -> ~ In (i_name i) (map fst (g_types s))) ->
  (forall n m p a, In (n, m) (g_types s) -> w_object m = Some (p, a) -> mget word_eqb (by_path (g_imports s)) runtime_path = Some a) ->
  by_code (g_types s') = by_code (g_types s) ++ flat_map (entry all) is /\
  g_errs s' = g_errs s ++ flat_map (errs_of all) is /\
  (forall i, In i is -> dueb all i = true -> gen_methods (i_name i) <> None) /\
  (exists r, need_imports (g_imports s) (entry_paths (flat_map (entry all) is)) = Some (g_imports s', r)) /\
  (forall n m p a, In (n, m) (g_types s') -> w_object m = Some (p, a) -> mget word_eqb (by_path (g_imports s')) runtime_path = Some a).
Proof.
  induction is as [|i is IH]; intros s s' H N Hn Ho; cbn [ObjectModel.all_types flat_map] in *.
  - injection H as <-. rewrite !app_nil_r. repeat (split; [reflexivity|]). split; [easy|]. split; [now exists []|exact Ho].
  - destruct (one_type all i s) as [s1| |] eqn:E; try discriminate. cbn [bind] in H.
    destruct (one_type_run _ _ _ _ E (Hn i (or_introl eq_refl))) as (T1 & E1 & G1 & (r1 & P1) & O1).
    cbn [map] in N. apply NoDup_cons_iff in N. destruct N as [Ni N].
    assert (K1 : map fst (g_types s1) = map fst (g_types s) ++ map fst (entry all i)) by (rewrite <- !by_code_names, T1; apply map_app).
    destruct (IH s1 s' H N) as (T2 & E2 & G2 & (r2 & P2) & O2).
    + intros j Hj. rewrite K1. intros X. apply in_app_or in X. destruct X as [X|X]; [apply (Hn j); [now right|exact X]|].
      apply in_map_iff in X. destruct X as ([n c] & X1 & X2). cbn in X1. subst n. apply entry_name in X2. apply Ni. rewrite <- X2. now apply in_map.
    + intros n m p a Hin Hm. destruct (O1 n m Hin) as [H1|H1].
      * apply (needs_keep _ _ _ _ _ _ P1). now apply (Ho n m p a).
      * destruct (H1 p a Hm) as (l1 & X). apply need_here in X. exact X.
    + split; [|split; [|split; [|split]]].
      * now rewrite T2, T1, <- app_assoc.
      * now rewrite E2, E1, <- app_assoc.
      * intros j [<-|Hj]; [exact G1|now apply G2].
      * exists (r1 ++ r2). unfold entry_paths in *. now rewrite flat_map_app, needs_app, P1, P2.
      * exact O2.
Qed.
End Object.
