(** * Imports of the generated DeepCopy code: the theorems (C30) *)

From Coq Require Import String List Bool Arith Permutation Lia.
Import ListNotations.
From Verif Require Import GoLib MapFacts ImportModel ImportSpec ImportProofs.
Open Scope nat_scope.
Open Scope list_scope.

Section Claims.
Variable letter digit : nat -> bool.

(** NeedImport returns: every sequence of requests gets one answer each, the same
    however many rounds the loop is allowed. *)
Theorem imports_answered ps l :
  exists n l' r, List.length r = List.length ps /\
    forall k, n <= k -> need_imports letter digit k l ps = Some (l', r).
Proof.
  destruct (needs_end letter digit ps l) as (n & [l' r] & H). exists n, l', r. split; [|easy].
  specialize (H n (le_n _)). clear - H. revert l r H.
  induction ps as [|p ps IH]; intros l r H; cbn [need_imports] in H.
  - injection H as _ <-. easy.
  - destruct (need_import letter digit n l p) as [[l1 a]|]; [|discriminate H].
    destruct (need_imports letter digit n l1 ps) as [[l2 r2]|] eqn:E; [|discriminate H].
    injection H as <- <-. cbn. now rewrite (IH l1 r2).
Qed.

(** Two requests get the same alias exactly if they mean the same package; and no
    request gets the name of the package that is generated for. *)
Theorem aliases_unambiguous root n ps l r i j p q p' q' a b :
  need_imports letter digit n (no_imports root) ps = Some (l, r) ->
  (forall p, In p ps -> ~ means p []) ->
  nth_error ps i = Some p -> nth_error r i = Some a -> means p p' ->
  nth_error ps j = Some q -> nth_error r j = Some b -> means q q' ->
  (a = b <-> p' = q').
Proof.
  intros H Hps Hp Ha Hp' Hq Hb Hq'. apply means_fun in Hp', Hq'. subst p' q'.
  destruct (needs_inv letter digit root n ps _ l r (inv_start root)) as (I & _ & Hn & _); [|easy|].
  { intros x Hx E. apply (Hps x Hx). apply means_fun. now symmetry. }
  apply (Hn i p a Hp) in Ha. apply (Hn j q b Hq) in Hb. split; [|congruence].
  intros ->. destruct (in_path _ _ I _ _ Ha) as (_ & E1). destruct (in_path _ _ I _ _ Hb) as (_ & E2). congruence.
Qed.

Theorem alias_not_root root n ps l r i a :
  need_imports letter digit n (no_imports root) ps = Some (l, r) ->
  (forall p, In p ps -> ~ means p []) ->
  nth_error r i = Some a -> a <> root.
Proof.
  intros H Hps Ha.
  destruct (needs_inv letter digit root n ps _ l r (inv_start root)) as (I & _ & Hn & Hl); [|easy|].
  { intros x Hx E. apply (Hps x Hx). apply means_fun. now symmetry. }
  destruct (nth_error ps i) as [p|] eqn:Hp.
  - specialize (Hn i p a Hp Ha). destruct (in_path _ _ I _ _ Hn) as (Hne & E). intros ->.
    rewrite (in_root _ _ I) in E. congruence.
  - exfalso. apply nth_error_None in Hp. assert (i < List.length r) by (apply nth_error_Some; congruence). lia.
Qed.

(** If the last part of the path meant has a character that is not a digit, the
    alias is an identifier. *)
Theorem alias_identifier n l p p' l1 a d f c :
  letter letter_x = true ->
  need_import letter digit n l p = Some (l1, a) ->
  means p p' -> mget word_eqb (by_path l) p' = None ->
  p' = d ++ f -> (d = [] \/ exists d', d = d' ++ [slash]) -> ~ In slash f ->
  In c f -> digit c = false ->
  identifier letter digit a.
Proof.
  intros Hx H Hm Hnew Hp Hd Hf Hc Hdig. apply means_fun in Hm. subst p'.
  unfold need_import in H. rewrite Hnew in H.
  destruct (no_vendor p) as [|x q] eqn:E.
  { destruct d; [|discriminate Hp]. cbn in Hp. subst f. easy. }
  destruct (path_split (x :: q)) as (rest, next) eqn:Es.
  destruct (pick letter digit n _ _ _ _ _) as [b|] eqn:Ep; [|discriminate H]. injection H as _ <-.
  destruct (split_last _ _ _ Es) as (Hsp & Hnf & Hrest).
  assert (next = f) as ->.
  { rewrite Hp in Hsp. clear - Hsp Hf Hnf Hd Hrest. revert Hsp.
    assert (Hone : forall u v u' v' : list nat, u ++ slash :: v = u' ++ slash :: v' -> ~ In slash v -> ~ In slash v' -> v = v').
    { induction u as [|y u IH]; intros v [|z u'] v' H Hv Hv'; cbn in H.
      - now injection H.
      - injection H as _ H. exfalso. apply Hv. rewrite H. apply in_or_app. right. now left.
      - injection H as _ H. exfalso. apply Hv'. rewrite <- H. apply in_or_app. right. now left.
      - injection H as _ H. now apply (IH v u' v'). }
    assert (Hnone : forall v u' v' : list nat, v = u' ++ slash :: v' -> In slash v).
    { intros v u' v' ->. apply in_or_app. right. now left. }
    destruct Hd as [->|(d' & ->)], Hrest as [->|(r' & ->)]; cbn [app]; rewrite <- ?app_assoc; cbn [app]; intros Hsp.
    - easy.
    - exfalso. apply Hf. eapply Hnone; eauto.
    - exfalso. apply Hnf. eapply Hnone; eauto.
    - symmetry. eapply Hone; eauto. }
  destruct (pick_id letter digit Hx n _ _ _ _ _ _ (or_introl eq_refl) Ep) as (Hid & Hne).
  destruct Hid as [->|Hid]; [|exact Hid]. exfalso. apply Hne; [|easy]. right. right. now exists c.
Qed.

(** The import specs bind each package to its alias and nothing else, provided
    packages are named as [name_of] says. *)
Theorem specs_bind_aliases root n ps l r name_of order :
  need_imports letter digit n (no_imports root) ps = Some (l, r) ->
  (forall p, In p ps -> ~ means p []) ->
  (forall m, Permutation m (order m)) ->
  let specs := import_specs name_of order l in
  NoDup (map snd specs) /\ NoDup (map (bound_name name_of) specs) /\
  (forall i p p' a, nth_error ps i = Some p -> nth_error r i = Some a -> means p p' ->
     exists s, In s specs /\ snd s = p' /\ bound_name name_of s = Some a).
Proof.
  intros H Hps Hord specs.
  destruct (needs_inv letter digit root n ps _ l r (inv_start root)) as (I & _ & Hn & Hl); [|easy|].
  { intros x Hx E. apply (Hps x Hx). apply means_fun. now symmetry. }
  set (one := fun pa : word * word => match name_of (fst pa) with
                 | Some n => if word_eqb n (snd pa) then (None, fst pa) else (Some (snd pa), fst pa)
                 | None => (Some (snd pa), fst pa)
                 end).
  assert (Hs : specs = map one (order (by_path l))) by reflexivity.
  assert (H1 : forall pa, snd (one pa) = fst pa).
  { intros (p, a). unfold one. cbn [fst snd]. destruct (name_of p) as [m|]; [|easy]. now destruct (word_eqb m a). }
  assert (H2 : forall pa, bound_name name_of (one pa) = Some (snd pa)).
  { intros (p, a). unfold one, bound_name. cbn [fst snd]. destruct (name_of p) as [m|] eqn:E; [|easy].
    destruct (word_eqb m a) eqn:Ea; [|easy]. apply word_eqb_eq in Ea. cbn [fst snd]. now rewrite E, Ea. }
  assert (Hkeys : NoDup (map fst (order (by_path l)))).
  { eapply Permutation_NoDup; [apply Permutation_map, Hord|]. apply (in_keys _ _ I). }
  assert (Hin : forall pa, In pa (order (by_path l)) -> mget word_eqb (by_path l) (fst pa) = Some (snd pa)).
  { intros (p, a) X. apply (in_mget _ _ _ word_eqb_eq); [apply (in_keys _ _ I)|].
    eapply Permutation_in; [symmetry; apply Hord|exact X]. }
  rewrite Hs. split; [|split].
  - rewrite map_map. erewrite map_ext; [exact Hkeys|exact H1].
  - rewrite map_map. erewrite map_ext by exact H2.
    revert Hkeys Hin. generalize (order (by_path l)) as m. induction m as [|(p, a) m IHm]; intros Hk Hin; [constructor|].
    inversion Hk as [|? ? Hnin Hk']; subst. cbn [map]. constructor.
    + rewrite in_map_iff. intros ((q, b) & Eq & Hq). cbn [snd] in Eq. injection Eq as ->.
      assert (X1 := Hin (p, a) (or_introl eq_refl)). assert (X2 := Hin (q, a) (or_intror Hq)). cbn [fst snd] in X1, X2.
      destruct (in_path _ _ I _ _ X1) as (_ & E1). destruct (in_path _ _ I _ _ X2) as (_ & E2).
      apply Hnin. cbn [fst]. replace p with q by congruence. apply (in_map fst) in Hq. exact Hq.
    + apply IHm; [easy|]. intros pa Hpa. apply Hin. now right.
  - intros i p p' a Hp Ha Hm. apply means_fun in Hm. subst p'. specialize (Hn i p a Hp Ha).
    exists (one (no_vendor p, a)). split; [|split; [apply H1|apply H2]].
    apply in_map. eapply Permutation_in; [apply Hord|]. now apply (mget_in _ _ _ word_eqb_eq).
Qed.

End Claims.
Print Assumptions imports_answered.
Print Assumptions aliases_unambiguous.
Print Assumptions alias_not_root.
Print Assumptions alias_identifier.
Print Assumptions specs_bind_aliases.

(** ** Cases *)

Definition ascii_letter (c : nat) : bool :=
  (Nat.leb 65 c && Nat.leb c 90) || (Nat.leb 97 c && Nat.leb c 122).
Definition ascii_digit (c : nat) : bool := Nat.leb 48 c && Nat.leb c 57.

(** Requests, as they come from a package called v1; the third means the first. *)
Definition ex_paths : list word :=
  map w ["k8s.io/api/core/v1"; "k8s.io/apimachinery/pkg/apis/meta/v1"; "example.com/vendor/k8s.io/api/core/v1";
         "k8s.io/apimachinery/pkg/runtime"; "fmt"; "a/corev1"]%string.
Example ex_aliases :
  match need_imports ascii_letter ascii_digit 100 (no_imports (w "v1")) ex_paths with
  | Some (_, r) => r = map w ["corev1"; "metav1"; "corev1"; "runtime"; "fmtx"; "acorev1x"]%string
  | None => False
  end.
Proof. vm_compute. reflexivity. Qed.
Example ex_no_empty : forall p, In p ex_paths -> ~ means p [].
Proof.
  intros p Hp Hm. apply means_fun in Hm. revert Hm.
  repeat destruct Hp as [<-|Hp]; try easy.
Qed.

(** The last part of the third path has a character that is not a digit. *)
Example ex_identifier : forall n l l1 a,
  mget word_eqb (by_path l) (w "k8s.io/api/core/v1") = None ->
  need_import ascii_letter ascii_digit n l (w "example.com/vendor/k8s.io/api/core/v1") = Some (l1, a) ->
  identifier ascii_letter ascii_digit a.
Proof.
  intros n l l1 a Hn H.
  refine (alias_identifier ascii_letter ascii_digit n l _ (w "k8s.io/api/core/v1") l1 a
            (w "k8s.io/api/core/") (w "v1") 118 eq_refl H _ Hn eq_refl _ _ _ eq_refl).
  - apply means_fun. reflexivity.
  - right. now exists (w "k8s.io/api/core").
  - intros [X|[X|[]]]; discriminate X.
  - now left.
Qed.

(** The specs for the requests above, if the packages' names are the last parts of
    their paths: an alias is written where it differs. *)
Example ex_specs :
  match need_imports ascii_letter ascii_digit 100 (no_imports (w "v1")) ex_paths with
  | Some (l, _) =>
      map fst (import_specs (fun p => Some (snd (path_split p))) (fun m => m) l) =
      map (option_map w) [Some "corev1"; Some "metav1"; None; Some "fmtx"; Some "acorev1x"]%string
  | None => False
  end.
Proof. vm_compute. reflexivity. Qed.

(** If the last part of the path consists of digits the alias is empty: the code
    written refers to the package's types as ".T". *)
Theorem alias_identifier_refuted :
  need_import ascii_letter ascii_digit 100 (no_imports (w "v1")) (w "example.com/api/2024") =
  Some (mkimports [(w "example.com/api/2024", [])] [(w "v1", []); ([], w "example.com/api/2024")], []).
Proof. vm_compute. reflexivity. Qed.
Print Assumptions alias_identifier_refuted.

(** The alias may be a keyword, the blank identifier, or one of the variables of the
    generated methods. *)
Theorem alias_usable_refuted :
  map (fun p => match need_import ascii_letter ascii_digit 100 (no_imports (w "v1")) (w p) with
                | Some (_, a) => a
                | None => []
                end) ["example.com/api/func"; "example.com/api/-"; "example.com/api/in"]%string
  = map w ["func"; "_"; "in"]%string.
Proof. vm_compute. reflexivity. Qed.
Print Assumptions alias_usable_refuted.

(** A package of the standard library never gets its own name. *)
Theorem alias_name_refuted :
  match need_import ascii_letter ascii_digit 100 (no_imports (w "v1")) (w "time") with
  | Some (_, a) => a = w "timex"
  | None => False
  end.
Proof. vm_compute. reflexivity. Qed.
Print Assumptions alias_name_refuted.
