(** * Proofs: the keywords of a node after its markers *)
From Coq Require Import List String Ascii Bool ZArith QArith Permutation Sorting.Sorted Lia.
From Verif Require Import GoLib GoLibFacts MapFacts SchemaModel ValidSpec MarkModel MarkSpec MarkProofs MarkMeaning MarkOrder StructModel EmitSpec.
Import ListNotations.
Open Scope nat_scope.
Open Scope string_scope.
Open Scope list_scope.

(** Keywords with a type, a format, a reference, required names and a description only *)
Definition bare (d t f : string) (r : option string) (q : list string) : kw := set_k_required (set_k_ref (set_k_format (set_k_type (set_k_desc kw0 d) t) f) r) q.
(** [K] is [B] with the markers *)
Definition marked_kw (own : list smarker) (B K : kw) : Prop :=
  (forall m, In m own -> carries m K) /\ (forall k, (forall m, In m own -> keyword_of m <> k) -> agree k B K) /\
  (forall r, In r (k_x_validations K) -> In r (k_x_validations B) \/ In (MXValidation r) own) /\ k_ref B = k_ref K /\ k_required B = k_required K.

Lemma has_keyword (own : list smarker) k : (exists m, In m own /\ keyword_of m = k) \/ (forall m, In m own -> keyword_of m <> k).
Proof.
  induction own as [|m own IH]; [right; intros m []|]. destruct (keyword_dec (keyword_of m) k) as [E|E]; [left; exists m; cbn; auto|].
  destruct IH as [(x & I & Ex)|N]; [left; exists x; cbn; auto|]. right. intros x [<-|I]; auto.
Qed.

Section Node.
  Variable O : oracles.
  Definition ref_ok (r : option string) (v : json) : bool := opt_ok r (fun r => String.eqb r "" || o_ref O r v).
  Definition required_ok (q : list string) (v : json) : bool := on_obj v (fun l => forallb (has_key l) q).

  Lemma type_ok_json t nl v : v <> JNull -> (type_ok t nl v = true <-> t = "" \/ has_json_type t v).
  Proof.
    intros N. unfold type_ok. rewrite orb_true_iff, String.eqb_eq. apply or_iff_compat_l.
    destruct v; cbn beta iota delta [has_json_type]; try contradiction; rewrite ?orb_true_iff, ?andb_true_iff, ?String.eqb_eq, ?integer_whole; tauto.
  Qed.
  Lemma admits_type t v : v <> JNull -> (admits O (MType t) kw0 v <-> t = "" \/ has_json_type t v).
  Proof. intros N. destruct v; cbn; try contradiction; tauto. Qed.
  Lemma check_format f v : (String.eqb f "" || o_format O f v) = true <-> f = "" \/ o_format O f v = true.
  Proof. rewrite orb_true_iff, String.eqb_eq. tauto. Qed.

  Ltac kwcase own K := destruct (has_keyword own K) as [(m & Hi & Hk)|Hn].

  Lemma node_keeps own d t f r q K v : marked_kw own (bare d t f r q) K -> v <> JNull -> ~ In (MExclMax true) own -> ~ In (MExclMin true) own ->
    (kw_ok O K v = true <-> keeps O own t f v /\ ref_ok r v = true /\ required_ok q v = true).
  Proof.
    intros (Hc & Ha & Hr & Hf & Hq) Nv Nx Nn. cbn in Hr, Hf, Hq.
    assert (Xm : k_excl_max K = false).
    { kwcase own KExclMax; [|symmetry; exact (Ha KExclMax Hn)]. destruct m; try discriminate. pose proof (Hc _ Hi) as C. cbn in C. destruct b; [contradiction|exact C]. }
    assert (Xn : k_excl_min K = false).
    { kwcase own KExclMin; [|symmetry; exact (Ha KExclMin Hn)]. destruct m; try discriminate. pose proof (Hc _ Hi) as C. cbn in C. destruct b; [contradiction|exact C]. }
    unfold kw_ok, kw_checks. cbn [forallb]. rewrite !andb_true_iff, Xm, Xn, <- Hf, <- Hq. split.
    - intros (C1 & C2 & C3 & C4 & C5 & C6 & C7 & C8 & C9 & C10 & C11 & C12 & C13 & C14 & C15 & C16 & C17 & C18 & C19 & _).
      split; [|split; [exact C2|exact C16]]. apply (type_ok_json _ _ _ Nv) in C1. apply check_format in C3. split; [|split].
      + intros m Hi. pose proof (Hc m Hi) as C. destruct m; cbn in C; try exact I.
        * rewrite C in C4. cbn in C4. intros n ->. cbn in *. apply Qle_bool_iff, C4.
        * rewrite C in C5. cbn in C5. intros n ->. cbn in *. apply Qle_bool_iff, C5.
        * cbn. intros n x _ [=].
        * cbn. intros n x _ [=].
        * rewrite C in C12. cbn in C12. intros n ->. exact C12.
        * rewrite C in C15. cbn in C15. intros n ->. apply Z.leb_le, C15.
        * rewrite C in C14. cbn in C14. intros n ->. apply Z.leb_le, C14.
        * rewrite C in C6. cbn in C6. intros n ->. apply Z.leb_le, C6.
        * rewrite C in C7. cbn in C7. intros n ->. apply Z.leb_le, C7.
        * rewrite C in C8. apply orb_true_iff in C8. rewrite String.eqb_eq in C8. intros n ->. exact C8.
        * rewrite C in C9. cbn in C9. intros n ->. apply Z.leb_le, C9.
        * rewrite C in C10. cbn in C10. intros n ->. apply Z.leb_le, C10.
        * rewrite C in C11. cbn. intros ->. cbn in C11. intros l x y z a c -> E. exact (proj1 (distinct_iff O l) C11 x y z a c E).
        * rewrite C in C13. cbn. destruct l as [|x l]; [left; reflexivity|right]. apply existsb_exists in C13. exact C13.
        * rewrite C in C3. exact C3.
        * rewrite C in C1. apply (admits_type _ _ Nv), C1.
        * rewrite C in C17. exact C17.
        * rewrite C in C18. cbn. cbn in C18. destruct v; try exact I; try discriminate. apply integer_whole, C18.
        * rewrite forallb_forall in C19. exact (C19 _ C).
      + intros N. assert (E : k_type K = t); [|rewrite E in C1; exact C1]. symmetry. apply (Ha KType). intros m Hi. destruct m; try discriminate. exfalso. exact (N _ Hi).
      + intros N. assert (E : k_format K = f); [|rewrite E in C3; exact C3]. symmetry. apply (Ha KFormat). intros m Hi. destruct m; try discriminate. exfalso. exact (N _ Hi).
    - intros ((A & T & F) & R & Q). repeat split; try exact R; try exact Q.
      + apply (type_ok_json _ _ _ Nv). kwcase own KType.
        * destruct m; try discriminate. pose proof (Hc _ Hi) as C. cbn in C. rewrite C. apply (admits_type _ _ Nv). exact (A _ Hi).
        * pose proof (Ha KType Hn) as E. cbn in E. rewrite <- E. apply T. intros x Hx. exact (Hn _ Hx eq_refl).
      + apply check_format. kwcase own KFormat.
        * destruct m; try discriminate. pose proof (Hc _ Hi) as C. cbn in C. rewrite C. exact (A _ Hi).
        * pose proof (Ha KFormat Hn) as E. cbn in E. rewrite <- E. apply F. intros x Hx. exact (Hn _ Hx eq_refl).
      + kwcase own KMaximum; [|pose proof (Ha KMaximum Hn) as E; cbn in E; rewrite <- E; reflexivity]. destruct m; try discriminate. pose proof (Hc _ Hi) as C. cbn in C. rewrite C. cbn.
        apply on_num_iff. intros n En. apply Qle_bool_iff. exact (A _ Hi n En).
      + kwcase own KMinimum; [|pose proof (Ha KMinimum Hn) as E; cbn in E; rewrite <- E; reflexivity]. destruct m; try discriminate. pose proof (Hc _ Hi) as C. cbn in C. rewrite C. cbn.
        apply on_num_iff. intros n En. apply Qle_bool_iff. exact (A _ Hi n En).
      + kwcase own KMaxLength; [|pose proof (Ha KMaxLength Hn) as E; cbn in E; rewrite <- E; reflexivity]. destruct m; try discriminate. pose proof (Hc _ Hi) as C. cbn in C. rewrite C. cbn.
        apply on_str_iff. intros n En. apply Z.leb_le. exact (A _ Hi n En).
      + kwcase own KMinLength; [|pose proof (Ha KMinLength Hn) as E; cbn in E; rewrite <- E; reflexivity]. destruct m; try discriminate. pose proof (Hc _ Hi) as C. cbn in C. rewrite C. cbn.
        apply on_str_iff. intros n En. apply Z.leb_le. exact (A _ Hi n En).
      + kwcase own KPattern; [|pose proof (Ha KPattern Hn) as E; cbn in E; rewrite <- E; reflexivity]. destruct m; try discriminate. pose proof (Hc _ Hi) as C. cbn in C. rewrite C.
        apply orb_true_iff. rewrite String.eqb_eq. destruct (string_dec s "") as [|Ne]; [left; assumption|right]. apply on_str_iff. intros n En. destruct (A _ Hi n En); [contradiction|assumption].
      + kwcase own KMaxItems; [|pose proof (Ha KMaxItems Hn) as E; cbn in E; rewrite <- E; reflexivity]. destruct m; try discriminate. pose proof (Hc _ Hi) as C. cbn in C. rewrite C. cbn.
        apply on_arr_iff. intros n En. apply Z.leb_le. exact (A _ Hi n En).
      + kwcase own KMinItems; [|pose proof (Ha KMinItems Hn) as E; cbn in E; rewrite <- E; reflexivity]. destruct m; try discriminate. pose proof (Hc _ Hi) as C. cbn in C. rewrite C. cbn.
        apply on_arr_iff. intros n En. apply Z.leb_le. exact (A _ Hi n En).
      + kwcase own KUniqueItems; [|pose proof (Ha KUniqueItems Hn) as E; cbn in E; rewrite <- E; reflexivity]. destruct m; try discriminate. pose proof (Hc _ Hi) as C. cbn in C. rewrite C.
        destruct b; [|reflexivity]. cbn. apply on_arr_iff. intros l El. apply distinct_iff. intros x y z a c. exact (A _ Hi eq_refl l x y z a c El).
      + kwcase own KMultipleOf; [|pose proof (Ha KMultipleOf Hn) as E; cbn in E; rewrite <- E; reflexivity]. destruct m; try discriminate. pose proof (Hc _ Hi) as C. cbn in C. rewrite C. cbn.
        apply on_num_iff. intros n En. exact (A _ Hi n En).
      + kwcase own KEnum; [|pose proof (Ha KEnum Hn) as E; cbn in E; rewrite <- E; reflexivity]. destruct m; try discriminate. pose proof (Hc _ Hi) as C. cbn in C. rewrite C.
        destruct (A _ Hi) as [->|(x & Ix & Jx)]; [reflexivity|]. destruct l as [|y l]; [destruct Ix|]. apply existsb_exists. exists x. auto.
      + kwcase own KMaxProps; [|pose proof (Ha KMaxProps Hn) as E; cbn in E; rewrite <- E; reflexivity]. destruct m; try discriminate. pose proof (Hc _ Hi) as C. cbn in C. rewrite C. cbn.
        apply on_obj_iff. intros n En. apply Z.leb_le. exact (A _ Hi n En).
      + kwcase own KMinProps; [|pose proof (Ha KMinProps Hn) as E; cbn in E; rewrite <- E; reflexivity]. destruct m; try discriminate. pose proof (Hc _ Hi) as C. cbn in C. rewrite C. cbn.
        apply on_obj_iff. intros n En. apply Z.leb_le. exact (A _ Hi n En).
      + kwcase own KEmbedded; [|pose proof (Ha KEmbedded Hn) as E; cbn in E; rewrite <- E; reflexivity]. destruct m; try discriminate. pose proof (Hc _ Hi) as C. cbn in C. rewrite C. cbn. exact (A _ Hi).
      + kwcase own KIntOrString; [|pose proof (Ha KIntOrString Hn) as E; cbn in E; rewrite <- E; reflexivity]. destruct m; try discriminate. pose proof (Hc _ Hi) as C. cbn in C. rewrite C. cbn.
        pose proof (A _ Hi) as B. cbn in B. destruct v; try reflexivity; try contradiction. apply integer_whole, B.
      + apply forallb_forall. intros x Hx. destruct (Hr x Hx) as [[]|Hm]. exact (A _ Hm).
  Qed.
End Node.

(** A list of markers, applied without errors *)
Definition one_list (l : list (string * smarker)) : Prop := StronglySorted (fun a b => priority (snd a) <= priority (snd b)) l /\
  allpairs (fun m m' => keyword_of m <> keyword_of m' \/ additive m m') (map snd l).
Lemma apply_all_unchanged l : forall s, unchanged_but (map keyword_of (map snd l)) s (fst (apply_all l s)).
Proof.
  induction l as [|[n m] l IH]; intros s0; [repeat split; intros; apply agree_refl|]. rewrite apply_all_cons. cbn [fst map snd].
  eapply (unchanged_trans [keyword_of m]); [|apply IH]. pose proof (apply_act m s0) as A. rewrite (apply_ok_upd m s0) in A. destruct (ok m s0).
  - injection A as ->. apply act_unchanged.
  - injection A as ->. repeat split; intros; apply agree_refl.
Qed.
Lemma apply_all_rules l r : forall s, In r (k_x_validations (s_kw (fst (apply_all l s)))) -> In r (k_x_validations (s_kw s)) \/ In (MXValidation r) (map snd l).
Proof.
  induction l as [|[n m] l IH]; intros s H; [left; exact H|]. rewrite apply_all_cons in H. cbn [fst map snd] in *. apply IH in H as [H|H]; [|right; right; exact H].
  pose proof (apply_act m s) as A. rewrite (apply_ok_upd m s) in A. destruct (ok m s); injection A as E; rewrite E in H; [|left; exact H].
  destruct m; try (left; exact H); try (left; destruct v; exact H).
  cbn in H. apply in_app_or in H as [H|[<-|[]]]; [left; exact H|right; left; reflexivity].
Qed.
Lemma apply_all_marked l s s' own : one_list l -> apply_all l s = (s', []) -> (forall m, In m own <-> In m (map snd l)) -> marked_kw own (s_kw s) (s_kw s').
Proof.
  intros [S1 P] E M. pose proof (apply_all_unchanged l s) as U. rewrite E in U. cbn [fst] in U. repeat split.
  - intros m Hi. apply M, in_map_iff in Hi as ([n m'] & <- & Hi). destruct (apply_all_carries l s n m' S1 P Hi) as [H|H]; rewrite E in H; [destruct H|exact H].
  - intros k Hk. apply U. intros Hi. apply in_map_iff in Hi as (m & Ek & Hi). apply M in Hi. exact (Hk m Hi Ek).
  - intros r Hr. pose proof (apply_all_rules l r s) as K. rewrite E in K. destruct (K Hr) as [|H]; [left; assumption|right; apply M, H].
  - apply U.
  - apply U.
Qed.
