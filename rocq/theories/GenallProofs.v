(** * Proofs on options, runs and output routing. *)
From Coq Require Import List String Ascii Bool Arith Lia Permutation.
From Verif Require Import GoLib GoLibFacts MapFacts RegistryModel RegistrySpec RegistryProofs GenallModel GenallSpec.
Import ListNotations.
Open Scope string_scope.
Open Scope list_scope.

(** ** Maps built by a loop *)
Section FoldSet.
  Variables K V X : Type.
  Variable keqb : K -> K -> bool.
  Hypothesis keqb_eq : forall a b, keqb a b = true <-> a = b.
  Variables (kf : X -> K) (vf : X -> V).
  Lemma fold_mset_in l m x : NoDup (map kf l) -> In x l -> mget keqb (fold_left (fun m x => mset keqb m (kf x) (vf x)) l m) (kf x) = Some (vf x).
  Proof.
    assert (Hother : forall l m k, ~ In k (map kf l) -> mget keqb (fold_left (fun m x => mset keqb m (kf x) (vf x)) l m) k = mget keqb m k).
    { clear l m x. induction l as [|y l IH]; intros m k H; simpl; [reflexivity|]. simpl in H. rewrite IH by tauto. apply (mget_mset_ne _ _ _ keqb_eq). intuition. }
    revert m. induction l as [|y l IH]; intros m N H; [destruct H|]. destruct H as [H|H]; simpl; inversion N; subst.
    - rewrite Hother by assumption. apply (mget_mset_eq _ _ _ keqb_eq).
    - apply IH; assumption.
  Qed.
  Lemma fold_mset_out l m k : ~ In k (map kf l) -> mget keqb (fold_left (fun m x => mset keqb m (kf x) (vf x)) l m) k = mget keqb m k.
  Proof. revert m. induction l as [|y l IH]; intros m H; simpl; [reflexivity|]. simpl in H. rewrite IH by tauto. apply (mget_mset_ne _ _ _ keqb_eq). intuition. Qed.
End FoldSet.

Lemma last_such_snoc {A} (P : A -> Prop) l x : P x -> last_such P (l ++ [x]) x.
Proof. intros H. exists l, []. repeat split; auto. Qed.
Lemma last_such_more {A} (P : A -> Prop) l x y : ~ P y -> last_such P l x -> last_such P (l ++ [y]) x.
Proof. intros H (l1 & l2 & -> & Hx & H2). exists l1, (l2 ++ [y]). rewrite <- app_assoc. repeat split; auto. intros z Hz. apply in_app_or in Hz as [Hz|[<-|[]]]; auto. Qed.
Lemma none_such_more {A} (P : A -> Prop) l y : ~ P y -> none_such P l -> none_such P (l ++ [y]).
Proof. intros H Hl z Hz. apply in_app_or in Hz as [Hz|[<-|[]]]; auto. Qed.
Lemma last_such_unique {A} (P : A -> Prop) l x y : last_such P l x -> last_such P l y -> x = y.
Proof.
  intros (l1 & l2 & -> & Hx & H2) (k1 & k2 & E & Hy & G2). revert k1 E. induction l1 as [|a l1 IH]; intros [|b k1] E; simpl in E.
  - injection E as -> _. reflexivity.
  - injection E as <- E. exfalso. apply (H2 y); [rewrite E; apply in_elt|exact Hy].
  - injection E as <- <-. exfalso. apply (G2 x); [apply in_elt|exact Hx].
  - injection E as _ E. exact (IH k1 E).
Qed.
Lemma last_such_none {A} (P : A -> Prop) l x : last_such P l x -> none_such P l -> False.
Proof. intros (l1 & l2 & -> & Hx & _) H. apply (H x); [apply in_elt|exact Hx]. Qed.

(** ** Names of output rules *)
Lemma split_default n : default_name n -> split_output_rule_option n = Some "".
Proof. intros (r & -> & H). unfold split_output_rule_option. change ("output:" ++ r)%string with ("output" ++ String ":" r)%string. rewrite (cut_char_eq ":" "output" r eq_refl), (cut_char_none _ _ H). reflexivity. Qed.
Lemma split_gen n g : gen_name n g -> split_output_rule_option n = Some g /\ g <> "".
Proof. intros (r & -> & H & N). split; [|exact N]. unfold split_output_rule_option. change ("output:" ++ g ++ ":" ++ r)%string with ("output" ++ String ":" (g ++ String ":" r))%string. rewrite (cut_char_eq ":" "output" (g ++ String ":" r)%string eq_refl), (cut_char_eq ":" g r H). reflexivity. Qed.

Lemma plus_prefix c r : has_prefix "+" (String c r) = Ascii.eqb c "+".
Proof.
  destruct (Ascii.eqb_spec c "+") as [->|E]; [destruct r; reflexivity|]. apply not_true_is_false. intros H. apply has_prefix_spec in H as [t H]. injection H as H _. contradiction.
Qed.

Section Opt.
  Variables G D : Type.
  Variable parse : D -> string -> option (optval G).
  Variable reg : registry D.
  Notation means := (means G D parse reg).
  Hypothesis rule_defs : forall raw n r, means raw (n, VOut r) -> default_name n \/ exists g, gen_name n g.

  Lemma means_step raw nv : means raw nv -> exists text d, with_plus raw = Some text /\ lookup D reg text DescribesPackage = Some d /\ parse (d_payload d) text = Some (snd nv) /\ d_name d = fst nv.
  Proof.
    intros (text & d & Ht & H1 & H2 & H3). exists text, d. split; [|auto]. destruct Ht as [[-> Hp]|[-> [Hp Hn]]].
    - destruct raw as [|c raw]; [discriminate|]. rewrite plus_prefix in Hp. unfold with_plus. rewrite Hp. reflexivity.
    - destruct raw as [|c raw]; [congruence|]. rewrite plus_prefix in Hp. unfold with_plus. rewrite Hp. reflexivity.
  Qed.
  Lemma step_means raw text d v : with_plus raw = Some text -> lookup D reg text DescribesPackage = Some d -> parse (d_payload d) text = Some v -> means raw (d_name d, v).
  Proof.
    intros Ht H1 H2. exists text, d. split; [|auto]. destruct raw as [|c raw]; [discriminate|]. simpl in Ht. injection Ht as <-.
    rewrite plus_prefix. destruct (Ascii.eqb c "+"); [left; auto|right]. split; [reflexivity|]. split; [reflexivity|discriminate].
  Qed.
  Lemma means_fun raw nv nv' : means raw nv -> means raw nv' -> nv = nv'.
  Proof.
    intros H H'. apply means_step in H as (t & d & H1 & H2 & H3 & H4). apply means_step in H' as (t' & d' & G1 & G2 & G3 & G4).
    rewrite H1 in G1. injection G1 as <-. rewrite H2 in G2. injection G2 as <-. rewrite H3 in G3. injection G3 as E. destruct nv, nv'; simpl in *. congruence.
  Qed.
  Lemma means_fun_all opts nvs nvs' : Forall2 means opts nvs -> Forall2 means opts nvs' -> nvs = nvs'.
  Proof. intros H. revert nvs'. induction H; intros nvs' H'; inversion H'; subst; [reflexivity|]. f_equal; [eapply means_fun; eassumption|auto]. Qed.

  (** What the variables hold after some options. *)
  Record inv (nvs : list (string * optval G)) (s : st G) : Prop := mkInv {
    inv_gens : s_gens G s = map snd (gens_of G nvs);
    inv_paths : s_paths G s = paths_of G nvs;
    inv_names : forall n i, In (n, i) (s_names G s) <-> nth_error (map fst (gens_of G nvs)) i = Some n;
    inv_names_nodup : NoDup (map fst (s_names G s));
    inv_default : match s_default G s with Some r => default_given G nvs r | None => no_default_given G nvs end;
    inv_out : forall g, match mget String.eqb (s_out G s) g with Some r => rule_given G nvs g r | None => no_rule_given G nvs g end;
    inv_out_nodup : NoDup (map fst (s_out G s));
    inv_other : forall n, ~ In (n, VOther) nvs;
    inv_once : NoDup (map fst (gens_of G nvs)) }.

  Lemma inv_init : inv [] (mkSt G [] None [] [] []).
  Proof.
    split.
    - reflexivity.
    - reflexivity.
    - intros n i. simpl. split; [intros []|destruct i; discriminate].
    - constructor.
    - intros y [].
    - intros g y [].
    - constructor.
    - intros n [].
    - constructor.
  Qed.

  Lemma gens_of_app a b : gens_of G (a ++ b) = gens_of G a ++ gens_of G b.
  Proof. apply flat_map_app. Qed.
  Lemma rules_of_app a b : rules_of G (a ++ b) = rules_of G a ++ rules_of G b.
  Proof. apply flat_map_app. Qed.
  Lemma paths_of_app a b : paths_of G (a ++ b) = paths_of G a ++ paths_of G b.
  Proof. apply flat_map_app. Qed.
  Lemma names_in nvs s n : inv nvs s -> (mget String.eqb (s_names G s) n <> None <-> In n (map fst (gens_of G nvs))).
  Proof.
    intros I. split.
    - destruct (mget String.eqb (s_names G s) n) as [i|] eqn:E; [|congruence]. intros _. apply (mget_in _ _ _ String.eqb_eq) in E. apply (inv_names _ _ I) in E. exact (nth_error_In _ _ E).
    - intros H E. apply In_nth_error in H as [i H]. apply (inv_names _ _ I) in H. apply (mget_none _ _ _ String.eqb_eq) in E. apply E. apply (in_map fst) in H. exact H.
  Qed.

  Lemma nodup_snoc {A} (l : list A) x : NoDup l -> ~ In x l -> NoDup (l ++ [x]).
  Proof. intros N H. rewrite <- (rev_involutive (l ++ [x])). apply NoDup_rev. rewrite rev_app_distr. simpl. constructor; [rewrite <- in_rev; exact H|apply NoDup_rev, N]. Qed.

  Lemma mset_absent n i (m : list (string * nat)) : mget String.eqb m n = None -> mset String.eqb m n i = m ++ [(n, i)].
  Proof. induction m as [|[k v] m IH]; simpl; [reflexivity|]. destruct (String.eqb n k); [discriminate|]. intros H. rewrite (IH H). reflexivity. Qed.

  Lemma step_ok nvs s raw s' : inv nvs s -> step G D parse reg s raw = Ok s' -> exists nv, means raw nv /\ inv (nvs ++ [nv]) s'.
  Proof.
    intros I. unfold step. destruct (with_plus raw) as [text|] eqn:Ht; [|discriminate]. destruct (lookup D reg text DescribesPackage) as [d|] eqn:Hl; [|discriminate].
    destruct (parse (d_payload d) text) as [v|] eqn:Hp; [|discriminate]. pose proof (step_means _ _ _ _ Ht Hl Hp) as Hm.
    assert (Other : v <> VOther -> forall n, ~ In (n, VOther) (nvs ++ [(d_name d, v)])).
    { intros Hv n Hn. apply in_app_or in Hn as [Hn|[Hn|[]]]; [exact (inv_other _ _ I n Hn)|]. injection Hn as _ E. exact (Hv E). }
    destruct v as [g|r|ps|]; [| | |discriminate].
    - destruct (mget String.eqb (s_names G s) (d_name d)) as [i|] eqn:En; [discriminate|]. intros [= <-]. exists (d_name d, VGen g). split; [exact Hm|].
      assert (Hnew : ~ In (d_name d) (map fst (gens_of G nvs))) by (rewrite <- (names_in nvs s _ I), En; tauto).
      assert (Hlen : List.length (s_gens G s) = List.length (map fst (gens_of G nvs))) by (rewrite (inv_gens _ _ I), !map_length; reflexivity).
      split; unfold default_given, no_default_given, rule_given, no_rule_given; rewrite ?gens_of_app, ?rules_of_app, ?paths_of_app, ?map_app; cbn [gens_of rules_of paths_of flat_map snd fst app map s_gens s_default s_out s_names s_paths]; rewrite ?app_nil_r.
      + rewrite (inv_gens _ _ I). reflexivity.
      + exact (inv_paths _ _ I).
      + intros n i. rewrite (mset_absent _ _ _ En), in_app_iff, (inv_names _ _ I). simpl. rewrite Hlen. split.
        * intros [H|[[= <- <-]|[]]]; [rewrite nth_error_app1; [exact H|apply nth_error_Some; congruence]|]. rewrite nth_error_app2, Nat.sub_diag by lia. reflexivity.
        * intros H. destruct (Nat.lt_ge_cases i (List.length (map fst (gens_of G nvs)))) as [L|L]; [rewrite nth_error_app1 in H by exact L; auto|].
          rewrite nth_error_app2 in H by exact L. destruct (i - List.length (map fst (gens_of G nvs))) as [|k] eqn:Ei; [|destruct k; discriminate]. simpl in H. injection H as <-. right. left. f_equal. lia.
      + apply (mset_nodup _ _ _ String.eqb_eq), (inv_names_nodup _ _ I).
      + exact (inv_default _ _ I).
      + exact (inv_out _ _ I).
      + exact (inv_out_nodup _ _ I).
      + apply Other; discriminate.
      + apply nodup_snoc; [exact (inv_once _ _ I)|exact Hnew].
    - destruct (rule_defs raw _ _ Hm) as [Hd|[gn Hg]].
      + rewrite (split_default _ Hd). simpl. intros [= <-]. exists (d_name d, VOut r). split; [exact Hm|].
        assert (Hng : forall g, ~ gen_name (d_name d) g) by (intros g Hg; apply split_gen in Hg as [E N]; rewrite (split_default _ Hd) in E; congruence).
        split; unfold default_given, no_default_given, rule_given, no_rule_given; rewrite ?gens_of_app, ?rules_of_app, ?paths_of_app, ?map_app; cbn [gens_of rules_of paths_of flat_map snd fst app map s_gens s_default s_out s_names s_paths]; rewrite ?app_nil_r.
        * exact (inv_gens _ _ I). * exact (inv_paths _ _ I). * exact (inv_names _ _ I). * exact (inv_names_nodup _ _ I).
        * exists (d_name d). apply last_such_snoc. exact Hd.
        * intros g. pose proof (inv_out _ _ I g) as H. destruct (mget String.eqb (s_out G s) g) as [r'|].
          -- destruct H as [n H]. exists n. apply last_such_more; [apply Hng|exact H].
          -- apply none_such_more; [apply Hng|exact H].
        * exact (inv_out_nodup _ _ I). * apply Other; discriminate. * exact (inv_once _ _ I).
      + destruct (split_gen _ _ Hg) as [Es Hne]. rewrite Es. destruct (String.eqb_spec gn "") as [E|_]; [contradiction|]. intros [= <-]. exists (d_name d, VOut r). split; [exact Hm|].
        assert (Hnd : ~ default_name (d_name d)) by (intros Hd; rewrite (split_default _ Hd) in Es; congruence).
        split; unfold default_given, no_default_given, rule_given, no_rule_given; rewrite ?gens_of_app, ?rules_of_app, ?paths_of_app, ?map_app; cbn [gens_of rules_of paths_of flat_map snd fst app map s_gens s_default s_out s_names s_paths]; rewrite ?app_nil_r.
        * exact (inv_gens _ _ I). * exact (inv_paths _ _ I). * exact (inv_names _ _ I). * exact (inv_names_nodup _ _ I).
        * pose proof (inv_default _ _ I) as H. destruct (s_default G s) as [r'|].
          -- destruct H as [n H]. exists n. apply last_such_more; [exact Hnd|exact H].
          -- apply none_such_more; [exact Hnd|exact H].
        * intros g. destruct (String.eqb_spec g gn) as [->|E].
          -- rewrite (mget_mset_eq _ _ _ String.eqb_eq). exists (d_name d). apply last_such_snoc. exact Hg.
          -- rewrite (mget_mset_ne _ _ _ String.eqb_eq) by exact E. assert (Hno : ~ gen_name (d_name d) g) by (intros Hg'; apply split_gen in Hg' as [E' _]; congruence).
             pose proof (inv_out _ _ I g) as H. destruct (mget String.eqb (s_out G s) g) as [r'|].
             ++ destruct H as [n H]. exists n. apply last_such_more; [exact Hno|exact H].
             ++ apply none_such_more; [exact Hno|exact H].
        * apply (mset_nodup _ _ _ String.eqb_eq), (inv_out_nodup _ _ I). * apply Other; discriminate. * exact (inv_once _ _ I).
    - intros [= <-]. exists (d_name d, VPaths ps). split; [exact Hm|].
      split; unfold default_given, no_default_given, rule_given, no_rule_given; rewrite ?gens_of_app, ?rules_of_app, ?paths_of_app, ?map_app; cbn [gens_of rules_of paths_of flat_map snd fst app map s_gens s_default s_out s_names s_paths]; rewrite ?app_nil_r.
      + exact (inv_gens _ _ I).
      + rewrite (inv_paths _ _ I). reflexivity.
      + exact (inv_names _ _ I). + exact (inv_names_nodup _ _ I). + exact (inv_default _ _ I). + exact (inv_out _ _ I). + exact (inv_out_nodup _ _ I).
      + apply Other; discriminate.
      + exact (inv_once _ _ I).
  Qed.

  Lemma step_complete nvs s raw nv : inv nvs s -> means raw nv -> snd nv <> VOther -> NoDup (map fst (gens_of G (nvs ++ [nv]))) -> exists s', step G D parse reg s raw = Ok s'.
  Proof.
    intros I Hm Ho N. pose proof Hm as Hm'. apply means_step in Hm' as (text & d & H1 & H2 & H3 & H4). unfold step. rewrite H1, H2, H3. destruct nv as [n v]. simpl in *. subst n.
    destruct v as [g|r|ps|]; [| |eexists; reflexivity|congruence].
    - destruct (mget String.eqb (s_names G s) (d_name d)) as [i|] eqn:En; [|eexists; reflexivity]. exfalso.
      assert (Hin : In (d_name d) (map fst (gens_of G nvs))) by (apply (names_in nvs s _ I); congruence).
      rewrite gens_of_app, map_app in N. simpl in N. apply NoDup_remove_2 in N. rewrite app_nil_r in N. exact (N Hin).
    - destruct (rule_defs raw _ _ Hm) as [Hd|[gn Hg]].
      + rewrite (split_default _ Hd). eexists; reflexivity.
      + destruct (split_gen _ _ Hg) as [Es Hne]. rewrite Es. destruct (String.eqb_spec gn "") as [E|_]; [contradiction|]. eexists; reflexivity.
  Qed.
  Lemma step_panic s raw : raw <> "" -> step G D parse reg s raw <> Panic.
  Proof.
    intros Hr. unfold step. destruct (with_plus raw) as [text|] eqn:Ht; [|destruct raw; [congruence|discriminate]]. destruct (lookup D reg text DescribesPackage) as [d|] eqn:Hl; [|discriminate].
    destruct (parse (d_payload d) text) as [v|] eqn:Hp; [|discriminate]. pose proof (step_means _ _ _ _ Ht Hl Hp) as Hm. destruct v as [g|r|ps|]; try discriminate.
    - destruct (mget String.eqb (s_names G s) (d_name d)); discriminate.
    - destruct (rule_defs raw _ _ Hm) as [Hd|[gn Hg]]; [rewrite (split_default _ Hd); discriminate|]. destruct (split_gen _ _ Hg) as [Es Hne]. rewrite Es. destruct (String.eqb gn ""); discriminate.
  Qed.

  Lemma steps_ok opts : forall nvs s s', inv nvs s -> steps G D parse reg s opts = Ok s' -> exists nvs', Forall2 means opts nvs' /\ inv (nvs ++ nvs') s'.
  Proof.
    induction opts as [|raw opts IH]; intros nvs s s' I H; simpl in H.
    - injection H as <-. exists []. rewrite app_nil_r. auto.
    - destruct (step G D parse reg s raw) as [s1| |] eqn:E; try discriminate. destruct (step_ok _ _ _ _ I E) as (nv & Hm & I1). destruct (IH _ _ _ I1 H) as (nvs' & Hms & I').
      exists (nv :: nvs'). split; [constructor; assumption|]. rewrite <- app_assoc in I'. exact I'.
  Qed.
  Lemma steps_complete opts : forall nvs s nvs', inv nvs s -> Forall2 means opts nvs' -> (forall n, ~ In (n, VOther) nvs') -> NoDup (map fst (gens_of G (nvs ++ nvs'))) -> exists s', steps G D parse reg s opts = Ok s'.
  Proof.
    induction opts as [|raw opts IH]; intros nvs s nvs' I H Ho N; inversion H as [|? nv ? nvs2 Hm Hms]; subst; simpl; [eexists; reflexivity|].
    destruct (step_complete nvs s raw nv I Hm) as [s1 E].
    - intros E. destruct nv as [n v]. simpl in E. subst v. apply (Ho n). left. reflexivity.
    - replace (nvs ++ nv :: nvs2) with ((nvs ++ [nv]) ++ nvs2) in N by (rewrite <- app_assoc; reflexivity). rewrite gens_of_app, map_app in N. clear -N. induction (map fst (gens_of G nvs2)) as [|x l IHl]; [rewrite app_nil_r in N; exact N|]. apply NoDup_remove_1 in N. auto.
    - rewrite E. destruct (step_ok _ _ _ _ I E) as (nv' & Hm' & I1). rewrite (means_fun _ _ _ Hm' Hm) in I1. apply (IH (nvs ++ [nv]) s1 nvs2 I1 Hms).
      + intros n Hn. apply (Ho n). right. exact Hn.
      + rewrite <- app_assoc. exact N.
  Qed.
  Lemma steps_panic opts : forall s, (forall raw, In raw opts -> raw <> "") -> steps G D parse reg s opts <> Panic.
  Proof.
    induction opts as [|raw opts IH]; intros s H; simpl; [discriminate|]. destruct (step G D parse reg s raw) as [s1| |] eqn:E; [apply IH; auto with datatypes|discriminate|].
    exfalso. exact (step_panic s raw (H raw (or_introl eq_refl)) E).
  Qed.

  (** ** Associating rules with generators *)
  Lemma associate_some names outs : forall acc m, associate names outs acc = Some m ->
    exists l, Forall2 (fun (nr : string * rule) gr => mget String.eqb names (fst nr) = Some (fst gr) /\ snd gr = snd nr) outs l /\ m = fold_left (fun m gr => mset Nat.eqb m (fst gr) (snd gr)) l acc.
  Proof.
    induction outs as [|[n r] outs IH]; intros acc m; simpl; [intros [= <-]; exists []; auto|]. destruct (mget String.eqb names n) as [g|] eqn:E; [|discriminate]. intros H.
    destruct (IH _ _ H) as (l & Hl & ->). exists ((g, r) :: l). split; [constructor; auto|reflexivity].
  Qed.
  Lemma associate_complete names outs : forall acc, (forall n r, In (n, r) outs -> mget String.eqb names n <> None) -> exists m, associate names outs acc = Some m.
  Proof.
    induction outs as [|[n r] outs IH]; intros acc H; simpl; [eexists; reflexivity|]. destruct (mget String.eqb names n) as [g|] eqn:E; [|exfalso; exact (H n r (or_introl eq_refl) E)]. apply IH. intros n' r' Hn. apply (H n' r'). right. exact Hn.
  Qed.
  Lemma associate_known names outs acc m n r : associate names outs acc = Some m -> In (n, r) outs -> mget String.eqb names n <> None.
  Proof.
    intros H. apply associate_some in H as (l & Hl & _). intros Hin. induction Hl as [|[n' r'] gr outs l [Hg _] Hl IH]; [destruct Hin|]. destruct Hin as [[= -> ->]|Hin]; [simpl in Hg; congruence|auto].
  Qed.

  Lemma index_names nvs s n i : inv nvs s -> (mget String.eqb (s_names G s) n = Some i <-> nth_error (map fst (gens_of G nvs)) i = Some n).
  Proof.
    intros I. rewrite <- (inv_names _ _ I). split; [apply (mget_in _ _ _ String.eqb_eq)|apply (in_mget _ _ _ String.eqb_eq); exact (inv_names_nodup _ _ I)].
  Qed.
  Lemma names_inj nvs s n n' i : inv nvs s -> mget String.eqb (s_names G s) n = Some i -> mget String.eqb (s_names G s) n' = Some i -> n = n'.
  Proof. intros I H H'. apply (index_names nvs s n i I) in H. apply (index_names nvs s n' i I) in H'. congruence. Qed.

  (** The rules of a proto-runtime, by generator. *)
  Lemma associate_get nvs s outs m n i : inv nvs s -> NoDup (map fst outs) -> associate (s_names G s) outs [] = Some m -> mget String.eqb (s_names G s) n = Some i ->
    mget Nat.eqb m i = mget String.eqb outs n.
  Proof.
    intros I N H Hn. apply associate_some in H as (l & Hl & ->).
    assert (Nl : NoDup (map fst l)).
    { clear Hn. induction Hl as [|[a r] [g r'] outs l [Hg Hr] Hl IH]; simpl; [constructor|]. simpl in N, Hg, Hr. inversion N; subst. constructor; [|auto]. intros Hin. apply H1.
      clear -Hin Hl Hg I. induction Hl as [|[a' ra] [g' rg] outs l [Hg' _] Hl IH]; simpl in *; [exact Hin|]. destruct Hin as [->|Hin]; [left; exact (names_inj _ _ _ _ _ I Hg' Hg)|auto]. }
    destruct (mget String.eqb outs n) as [r|] eqn:E.
    - apply (mget_in _ _ _ String.eqb_eq) in E. assert (Hin : In (i, r) l).
      { clear N Nl. induction Hl as [|[a ra] [g rg] outs l [Hg Hr] Hl IH]; [destruct E|]. simpl in Hg, Hr. destruct E as [[= -> ->]|E]; [left; congruence|right; auto]. }
      change i with (fst (i, r)). rewrite (fold_mset_in nat rule (nat * rule) Nat.eqb Nat.eqb_eq fst snd l [] (i, r) Nl Hin). reflexivity.
    - apply (mget_none _ _ _ String.eqb_eq) in E. rewrite (fold_mset_out nat rule (nat * rule) Nat.eqb Nat.eqb_eq fst snd); [reflexivity|]. intros Hin. apply E.
      clear N Nl E. induction Hl as [|[a ra] [g rg] outs l [Hg _] Hl IH]; simpl in *; [exact Hin|]. destruct Hin as [->|Hin]; [left; exact (names_inj _ _ _ _ _ I Hg Hn)|auto].
  Qed.
  Lemma associate_keys_names nvs s outs m i r : inv nvs s -> associate (s_names G s) outs [] = Some m -> mget Nat.eqb m i = Some r -> i < List.length (gens_of G nvs).
  Proof.
    intros I H Hm. apply associate_some in H as (l & Hl & ->). destruct (in_dec Nat.eq_dec i (map fst l)) as [Hin|Hno].
    - clear Hm. induction Hl as [|[a ra] [g rg] outs l [Hg _] Hl IH]; simpl in *; [destruct Hin|]. destruct Hin as [->|Hin]; [|auto]. apply (index_names nvs s a i I) in Hg. rewrite <- (map_length fst). apply nth_error_Some. congruence.
    - rewrite (fold_mset_out nat rule (nat * rule) Nat.eqb Nat.eqb_eq fst snd) in Hm by exact Hno. discriminate.
  Qed.

  Section Proto.
    Variable o : list (string * rule) -> list (string * rule).
    Hypothesis Ho : is_order o.

    Lemma proto_ok opts p : proto_from_options G D parse o reg opts = Ok p -> exists nvs s m, Forall2 means opts nvs /\ inv nvs s /\ associate (s_names G s) (o (s_out G s)) [] = Some m /\ p = mkProto (s_paths G s) (s_gens G s) (mkRules (s_default G s) m) (s_names G s).
    Proof.
      unfold proto_from_options. destruct (steps G D parse reg (mkSt G [] None [] [] []) opts) as [s| |] eqn:E; try discriminate. destruct (associate (s_names G s) (o (s_out G s)) []) as [m|] eqn:A; [|discriminate]. intros [= <-].
      destruct (steps_ok _ _ _ _ inv_init E) as (nvs & Hms & I). exists nvs, s, m. auto.
    Qed.

    Lemma out_mget s n : NoDup (map fst (s_out G s)) -> mget String.eqb (o (s_out G s)) n = mget String.eqb (s_out G s) n.
    Proof. intros N. apply (mget_perm _ _ _ String.eqb_eq); [exact N|]. apply Permutation_sym, Ho. Qed.

    Lemma rules_of_in nvs n r : In (n, r) (rules_of G nvs) <-> In (n, VOut r) nvs.
    Proof.
      unfold rules_of. rewrite in_flat_map. split.
      - intros ([n' v] & Hin & H). destruct v as [g|r'|ps|]; simpl in H; try contradiction. destruct H as [[= -> ->]|[]]. exact Hin.
      - intros H. exists (n, VOut r). split; [exact H|left; reflexivity].
    Qed.

    Lemma accepted opts : (exists p, proto_from_options G D parse o reg opts = Ok p) <-> exists nvs, Forall2 means opts nvs /\ acceptable G nvs.
    Proof.
      split.
      - intros [p H]. apply proto_ok in H as (nvs & s & m & Hms & I & A & _). exists nvs. split; [exact Hms|]. split; [exact (inv_other _ _ I)|]. split; [exact (inv_once _ _ I)|].
        intros n r g Hin Hg. apply (names_in nvs s g I). pose proof (inv_out _ _ I g) as Ho'. destruct (mget String.eqb (s_out G s) g) as [r'|] eqn:E.
        + apply (mget_in _ _ _ String.eqb_eq) in E. apply (associate_known _ _ _ _ g r' A). apply (Permutation_in _ (Permutation_sym (Ho _))). exact E.
        + exfalso. apply (Ho' (n, r)); [apply rules_of_in; exact Hin|exact Hg].
      - intros (nvs & Hms & H1 & H2 & H3). destruct (steps_complete opts [] _ nvs inv_init Hms H1 H2) as [s Es]. unfold proto_from_options. rewrite Es. destruct (steps_ok _ _ _ _ inv_init Es) as (nvs' & Hms' & I).
        rewrite (means_fun_all _ _ _ Hms' Hms) in I. simpl in I. destruct (associate_complete (s_names G s) (o (s_out G s)) []) as [m Em]; [|rewrite Em; eexists; reflexivity].
        intros n r Hin. apply (Permutation_in _ (Ho _)) in Hin. apply (in_mget _ _ _ String.eqb_eq _ _ _ (inv_out_nodup _ _ I)) in Hin. pose proof (inv_out _ _ I n) as Hr. rewrite Hin in Hr. destruct Hr as (nn & l1 & l2 & E & Hg & _). simpl in Hg.
        apply (names_in nvs s n I). apply (H3 nn r n); [|exact Hg]. apply rules_of_in. rewrite E. apply in_elt.
    Qed.

    Lemma no_panic opts : (forall raw, In raw opts -> raw <> "") -> proto_from_options G D parse o reg opts <> Panic.
    Proof.
      intros H. unfold proto_from_options. pose proof (steps_panic opts (mkSt G [] None [] [] []) H) as Hs. destruct (steps G D parse reg (mkSt G [] None [] [] []) opts); [|discriminate|congruence].
      destruct (associate _ _ _); discriminate.
    Qed.

    Lemma proto_parts opts p nvs : proto_from_options G D parse o reg opts = Ok p -> Forall2 means opts nvs -> p_gens p = map snd (gens_of G nvs) /\ p_paths p = paths_of G nvs.
    Proof. intros H Hms. apply proto_ok in H as (nvs' & s & m & Hms' & I & A & ->). rewrite (means_fun_all _ _ _ Hms Hms'). simpl. split; [exact (inv_gens _ _ I)|exact (inv_paths _ _ I)]. Qed.

    (** ** The rules of the runtime *)
    Variable pjoin : string -> string -> string.
    Variables (o1 : list (string * nat) -> list (string * nat)) (o2 : list (nat * rule) -> list (nat * rule)).
    Hypothesis Ho1 : is_order o1.
    Hypothesis Ho2 : is_order o2.

    Lemma nodup_map_inj {X Y} (f : X -> Y) l : NoDup l -> (forall a b, In a l -> In b l -> f a = f b -> a = b) -> NoDup (map f l).
    Proof.
      induction l as [|x l IH]; simpl; intros N H; [constructor|]. inversion N; subst. constructor; [|apply IH; auto]. intros Hin. apply in_map_iff in Hin as (y & E & Hy). apply H2. rewrite (H x y); auto.
    Qed.
    Lemma nodup_of_fst {X Y} (l : list (X * Y)) : NoDup (map fst l) -> NoDup l.
    Proof. apply NoDup_map_inv. Qed.

    Lemma base_get nvs s n i : inv nvs s -> nth_error (map fst (gens_of G nvs)) i = Some n ->
      mget Nat.eqb (r_by_gen (directory_per_generator pjoin o1 "config" (s_names G s))) i = Some (Artifacts (pjoin "config" n) "").
    Proof.
      intros I H. apply (inv_names _ _ I) in H. unfold directory_per_generator. cbn [r_by_gen].
      assert (Hin : In (n, i) (o1 (s_names G s))) by exact (Permutation_in _ (Permutation_sym (Ho1 _)) H).
      apply (fold_mset_in nat rule (string * nat) Nat.eqb Nat.eqb_eq snd (fun ng => Artifacts (pjoin "config" (fst ng)) "") (o1 (s_names G s)) [] (n, i)); [|exact Hin].
      apply (Permutation_NoDup (Permutation_map snd (Permutation_sym (Ho1 _)))). apply nodup_map_inj; [apply nodup_of_fst, (inv_names_nodup _ _ I)|].
      intros [a x] [b y] Ha Hb E. simpl in E. subst y. apply (inv_names _ _ I) in Ha. apply (inv_names _ _ I) in Hb. congruence.
    Qed.
    Lemma associate_nodup names outs m : associate names outs [] = Some m -> NoDup (map fst m).
    Proof.
      intros H. apply associate_some in H as (l & _ & ->). assert (E : NoDup (map fst (@nil (nat * rule)))) by constructor. revert E. generalize (@nil (nat * rule)). induction l as [|x l IH]; intros acc N; simpl; [exact N|]. apply IH. apply (mset_nodup _ _ _ Nat.eqb_eq), N.
    Qed.

    Lemma runtime_rule opts p nvs i n g r : proto_from_options G D parse o reg opts = Ok p -> Forall2 means opts nvs -> nth_error (gens_of G nvs) i = Some (n, g) ->
      (for_generator (runtime_rules G pjoin o1 o2 p) i = Some r <->
       rule_given G nvs n r \/ (no_rule_given G nvs n /\ (default_given G nvs r \/ (no_default_given G nvs /\ r = Artifacts (pjoin "config" n) "")))).
    Proof.
      intros H Hms Hn. apply proto_ok in H as (nvs' & s & m & Hms' & I & A & ->). rewrite <- (means_fun_all _ _ _ Hms Hms') in I. clear nvs' Hms'.
      assert (Hi : nth_error (map fst (gens_of G nvs)) i = Some n) by (rewrite (map_nth_error fst i _ Hn); reflexivity).
      pose proof (proj2 (index_names nvs s n i I) Hi) as Hx.
      assert (Nout : NoDup (map fst (o (s_out G s)))) by exact (Permutation_NoDup (Permutation_map fst (Permutation_sym (Ho _))) (inv_out_nodup _ _ I)).
      assert (Em : mget Nat.eqb m i = mget String.eqb (s_out G s) n) by (rewrite (associate_get nvs s _ m n i I Nout A Hx); apply out_mget, (inv_out_nodup _ _ I)).
      pose proof (inv_out _ _ I n) as Hr. pose proof (inv_default _ _ I) as Hd.
      assert (Uniq : forall r r', rule_given G nvs n r -> rule_given G nvs n r' -> r = r') by (intros ? ? [? L] [? L']; pose proof (last_such_unique _ _ _ _ L L'); congruence).
      assert (UniqD : forall r r', default_given G nvs r -> default_given G nvs r' -> r = r') by (intros ? ? [? L] [? L']; pose proof (last_such_unique _ _ _ _ L L'); congruence).
      assert (Ex : forall r, rule_given G nvs n r -> no_rule_given G nvs n -> False) by (intros ? [? L] L'; exact (last_such_none _ _ _ L L')).
      assert (ExD : forall r, default_given G nvs r -> no_default_given G nvs -> False) by (intros ? [? L] L'; exact (last_such_none _ _ _ L L')).
      unfold runtime_rules. cbn [p_rules r_default p_by_name r_by_gen]. destruct (s_default G s) as [dr|] eqn:Ed; unfold for_generator; cbn [r_by_gen r_default].
      - rewrite Em. destruct (mget String.eqb (s_out G s) n) as [rr|].
        + split; [intros [= ->]; auto|]. intros [L|[L _]]; [f_equal; exact (Uniq _ _ Hr L)|destruct (Ex _ Hr L)].
        + split; [intros [= ->]; auto|]. intros [L|[_ [L|[L _]]]]; [destruct (Ex _ L Hr)|f_equal; exact (UniqD _ _ Hd L)|destruct (ExD _ Hd L)].
      - assert (Nm : NoDup (map fst m)) by exact (associate_nodup _ _ _ A).
        assert (Nm2 : NoDup (map fst (o2 m))) by exact (Permutation_NoDup (Permutation_map fst (Permutation_sym (Ho2 _))) Nm).
        destruct (mget String.eqb (s_out G s) n) as [rr|].
        + assert (Hin : In (i, rr) (o2 m)) by (apply (Permutation_in _ (Permutation_sym (Ho2 _))); exact (mget_in _ _ _ Nat.eqb_eq _ _ _ Em)).
          change i with (fst (i, rr)) at 1. rewrite (fold_mset_in nat rule (nat * rule) Nat.eqb Nat.eqb_eq fst snd (o2 m) _ (i, rr) Nm2 Hin). simpl.
          split; [intros [= ->]; auto|]. intros [L|[L _]]; [f_equal; exact (Uniq _ _ Hr L)|destruct (Ex _ Hr L)].
        + rewrite (fold_mset_out nat rule (nat * rule) Nat.eqb Nat.eqb_eq fst snd).
          * rewrite (base_get nvs s n i I Hi). split; [intros [= <-]; auto|]. intros [L|[_ [L|[_ ->]]]]; [destruct (Ex _ L Hr)|destruct (ExD _ L Hd)|reflexivity].
          * intros Hin. apply (Permutation_in _ (Permutation_map fst (Ho2 m))) in Hin. apply (mget_none _ _ _ Nat.eqb_eq) in Em. exact (Em Hin).
    Qed.
  End Proto.

  (** ** Run *)
  Section RunP.
    Variable W : Type.
    Variable act : G -> option rule -> bool -> W -> W * option string.
    Variable needs_check : G -> bool.
    Definition printed_of (es : list (option string)) : list string := flat_map (fun e => match e with Some x => [x] | None => [] end) es.
    Lemma run_loop_called rs gens : forall w pr had, exists es w', called G W act needs_check (for_generator rs) gens w es w' /\
      run_loop G W act needs_check rs gens w pr had = (w', pr ++ printed_of es, had || existsb (fun e => match e with Some _ => true | None => false end) es).
    Proof.
      induction gens as [|[i g] gens IH]; intros w pr had; simpl.
      - exists [], w. split; [constructor|]. simpl. rewrite app_nil_r, orb_false_r. reflexivity.
      - destruct (act g (for_generator rs i) (needs_check g) w) as [w1 e] eqn:E. destruct e as [e|].
        + destruct (IH w1 (pr ++ [e]) true) as (es & w' & C & ->). exists (Some e :: es), w'. split; [econstructor; eassumption|]. simpl. rewrite <- app_assoc, orb_true_r. reflexivity.
        + destruct (IH w1 pr had) as (es & w' & C & ->). exists (None :: es), w'. split; [econstructor; eassumption|]. reflexivity.
    Qed.
    Lemma called_fun rule_of gens : forall w es es' w' w'', called G W act needs_check rule_of gens w es w' -> called G W act needs_check rule_of gens w es' w'' -> es = es' /\ w' = w''.
    Proof.
      induction gens as [|[i g] gens IH]; intros w es es' w' w'' H H'; inversion H; inversion H'; subst; [auto|].
      match goal with A : act _ _ _ _ = (?w1, ?e), B : act _ _ _ _ = (?w2, ?e2) |- _ => rewrite A in B; injection B as <- <- end.
      match goal with A : called _ _ _ _ _ gens ?x _ _, B : called _ _ _ _ _ gens ?x _ _ |- _ => destruct (IH _ _ _ _ _ A B) as [-> ->] end. auto.
    Qed.

    Variable pkg : Type.
    Variable errors_of : W -> pkg -> list bool.
    Variable visit : W -> list pkg -> list pkg.
    Variable imports : W -> pkg -> list pkg.
    Hypothesis visit_spec : forall w roots p, In p (visit w roots) <-> exists r, In r roots /\ reaches (imports w) r p.

    Lemma print_errors_spec w roots : print_errors W pkg errors_of visit w roots = true <-> exists r p, In r roots /\ reaches (imports w) r p /\ In false (errors_of w p).
    Proof.
      unfold print_errors. rewrite existsb_exists. split.
      - intros (p & Hp & E). apply existsb_exists in E as (b & Hb & Hn). destruct b; [discriminate|]. apply visit_spec in Hp as (r & Hr & Hrp). exists r, p. auto.
      - intros (r & p & Hr & Hrp & Hf). exists p. split; [apply visit_spec; exists r; auto|]. apply existsb_exists. exists false. auto.
    Qed.
    Lemma run_spec rs gens roots w : gens <> [] -> exists es w' b, called G W act needs_check (for_generator rs) gens w es w' /\
      run G W act needs_check pkg errors_of visit rs gens roots w = (w', printed_of es, b) /\
      (b = true <-> (exists e, In (Some e) es) \/ exists r p, In r roots /\ reaches (imports w') r p /\ In false (errors_of w' p)).
    Proof.
      intros Hne. destruct (run_loop_called rs gens w [] false) as (es & w' & C & E). unfold run. destruct gens as [|g gens]; [congruence|]. rewrite E. exists es, w'. eexists. split; [exact C|]. split; [reflexivity|].
      rewrite orb_true_iff, print_errors_spec. simpl. rewrite existsb_exists. split.
      - intros [H|([e|] & He & F)]; [right; exact H|left; exists e; exact He|discriminate].
      - intros [[e He]|H]; [right; exists (Some e); auto|left; exact H].
    Qed.
  End RunP.
End Opt.

(** ** Writing *)
Section WriteP.
  Variable Obj : Type.
  Variable marshal : Obj -> option string.
  Definition doc (y : string) : string := ("---" ++ String (ascii_of_nat 10) y)%string.

  Definition content (p : string) (w : world) : string := match mget String.eqb (w_files w) p with Some x => x | None => "" end.
  Lemma put_file_same p data w : content p (put (File p) data w) = (content p w ++ data)%string.
  Proof. unfold content, put. cbn [w_files]. rewrite (mget_mset_eq _ _ _ String.eqb_eq). reflexivity. Qed.
  Lemma put_file_other p q data w : q <> p -> mget String.eqb (w_files (put (File p) data w)) q = mget String.eqb (w_files w) q.
  Proof. intros H. unfold put. cbn [w_files]. apply (mget_mset_ne _ _ _ String.eqb_eq), H. Qed.

  Definition no_bytes : string := "".
  Lemma write_objs_spec wr s objs : forall k w w', write_objs Obj marshal wr k s objs w = (w', true) ->
    exists ys, Forall2 (fun o y => marshal o = Some y) objs ys /\ w' = fold_left (fun w y => put s (doc y) w) ys w.
  Proof.
    induction objs as [|o objs IH]; intros k w w' H; simpl in H; [injection H as <-; exists []; auto|]. destruct (marshal o) as [y|] eqn:E; [|discriminate]. destruct (wr k); [|discriminate].
    destruct (IH _ _ _ H) as (ys & F & ->). exists (y :: ys). split; [constructor; assumption|reflexivity].
  Qed.
  Lemma write_objs_complete wr s objs ys : (forall k, wr k = true) -> Forall2 (fun o y => marshal o = Some y) objs ys -> forall k w, exists w', write_objs Obj marshal wr k s objs w = (w', true).
  Proof. intros Hw F. induction F as [|o y objs ys E F IH]; intros k w; simpl; [eexists; reflexivity|]. rewrite E, Hw. apply IH. Qed.

  Lemma puts_file p ys : forall w, content p (fold_left (fun w y => put (File p) (doc y) w) ys w) = (content p w ++ join "" (map doc ys))%string
                                   /\ (forall q, q <> p -> mget String.eqb (w_files (fold_left (fun w y => put (File p) (doc y) w) ys w)) q = mget String.eqb (w_files w) q)
                                   /\ w_stdout (fold_left (fun w y => put (File p) (doc y) w) ys w) = w_stdout w
                                   /\ (mget String.eqb (w_files w) p <> None -> mget String.eqb (w_files (fold_left (fun w y => put (File p) (doc y) w) ys w)) p <> None).
  Proof.
    induction ys as [|y ys IH]; intros w; cbn [fold_left map join]; [rewrite str_app_nil_r; auto|]. destruct (IH (put (File p) (doc y) w)) as (H1 & H2 & H3 & H4).
    rewrite H1, put_file_same, H3. split; [|split; [|split]].
    - rewrite str_app_assoc. f_equal. destruct (map doc ys); [simpl; rewrite str_app_nil_r; reflexivity|reflexivity].
    - intros q Hq. rewrite (H2 q Hq). apply put_file_other, Hq.
    - reflexivity.
    - intros _. apply H4. unfold put. cbn [w_files]. rewrite (mget_mset_eq _ _ _ String.eqb_eq). discriminate.
  Qed.
  Lemma puts_stdout ys : forall w, w_files (fold_left (fun w y => put Stdout (doc y) w) ys w) = w_files w /\ w_stdout (fold_left (fun w y => put Stdout (doc y) w) ys w) = (w_stdout w ++ join "" (map doc ys))%string.
  Proof.
    induction ys as [|y ys IH]; intros w; cbn [fold_left map join]; [rewrite str_app_nil_r; auto|]. destruct (IH (put Stdout (doc y) w)) as (H1 & H2). rewrite H1, H2. split; [reflexivity|]. cbn [put w_stdout].
    rewrite str_app_assoc. f_equal. destruct (map doc ys); [simpl; rewrite str_app_nil_r; reflexivity|reflexivity].
  Qed.
  Lemma puts_discard ys : forall w, fold_left (fun w y => put Discard (doc y) w) ys w = w.
  Proof. induction ys as [|y ys IH]; intros w; cbn [fold_left]; [reflexivity|apply IH]. Qed.

  Lemma write_ok wr opn header objs w w' : write_yaml Obj marshal wr opn header objs w = (w', true) ->
    exists s ys, opn = Some s /\ Forall2 (fun o y => marshal o = Some y) objs ys /\
      let text := (header ++ join "" (map doc ys))%string in
      match s with
      | Discard => w' = w
      | Stdout => w_files w' = w_files w /\ w_stdout w' = (w_stdout w ++ text)%string
      | File p => mget String.eqb (w_files w') p = Some text /\ w_stdout w' = w_stdout w /\ forall q, q <> p -> mget String.eqb (w_files w') q = mget String.eqb (w_files w) q
      end.
  Proof.
    unfold write_yaml. destruct opn as [s|]; [|discriminate]. destruct (wr 0); [|discriminate]. intros H. apply write_objs_spec in H as (ys & F & ->). exists s, ys. split; [reflexivity|]. split; [exact F|]. cbv zeta.
    destruct s as [| |p].
    - rewrite puts_discard. reflexivity.
    - destruct (puts_stdout ys (put Stdout header (opened Stdout w))) as (H1 & H2). rewrite H1, H2. split; [reflexivity|]. cbn [put w_stdout opened]. rewrite str_app_assoc. reflexivity.
    - set (w1 := put (File p) header (opened (File p) w)). destruct (puts_file p ys w1) as (H1 & H2 & H3 & H4).
      assert (E1 : content p w1 = header) by (unfold w1; rewrite put_file_same; unfold content, opened; cbn [w_files]; rewrite (mget_mset_eq _ _ _ String.eqb_eq); reflexivity).
      assert (E2 : mget String.eqb (w_files w1) p <> None) by (unfold w1, put; cbn [w_files]; rewrite (mget_mset_eq _ _ _ String.eqb_eq); discriminate).
      specialize (H4 E2). unfold content in H1 at 1. destruct (mget String.eqb (w_files (fold_left (fun w y => put (File p) (doc y) w) ys w1)) p) as [x|]; [|congruence].
      rewrite E1 in H1. split; [congruence|]. split; [rewrite H3; reflexivity|]. intros q Hq. rewrite (H2 q Hq). unfold w1. rewrite (put_file_other _ _ _ _ Hq). unfold opened. cbn [w_files]. apply (mget_mset_ne _ _ _ String.eqb_eq), Hq.
  Qed.
  Lemma write_complete wr s header objs w : (forall k, wr k = true) -> ((exists w', write_yaml Obj marshal wr (Some s) header objs w = (w', true)) <-> forall o, In o objs -> marshal o <> None).
  Proof.
    intros Hw. split.
    - intros [w' H]. unfold write_yaml in H. destruct (wr 0); [|discriminate]. apply write_objs_spec in H as (ys & F & _). intros o Hin. induction F; [destruct Hin|]. destruct Hin as [->|Hin]; [congruence|auto].
    - intros H. assert (F : exists ys, Forall2 (fun o y => marshal o = Some y) objs ys).
      { induction objs as [|o objs IH]; [exists []; constructor|]. destruct IH as [ys F]; [auto with datatypes|]. destruct (marshal o) as [y|] eqn:E; [exists (y :: ys); constructor; auto|]. exfalso. exact (H o (or_introl eq_refl) E). }
      destruct F as [ys F]. unfold write_yaml. rewrite Hw. exact (write_objs_complete wr s objs ys Hw F 1 _).
  Qed.
  Lemma write_failure wr p header objs w w' b : write_yaml Obj marshal wr (Some (File p)) header objs w = (w', b) -> w_stdout w' = w_stdout w /\ forall q, q <> p -> mget String.eqb (w_files w') q = mget String.eqb (w_files w) q.
  Proof.
    unfold write_yaml. assert (L : forall objs k w w' b, write_objs Obj marshal wr k (File p) objs w = (w', b) -> w_stdout w' = w_stdout w /\ forall q, q <> p -> mget String.eqb (w_files w') q = mget String.eqb (w_files w) q).
    { clear objs w w' b. induction objs as [|o objs IH]; intros k w w' b H; simpl in H; [injection H as <- _; auto|]. destruct (marshal o) as [y|]; [|injection H as <- _; auto]. destruct (wr k); [|injection H as <- _; auto].
      destruct (IH _ _ _ _ H) as [H1 H2]. split; [rewrite H1; reflexivity|]. intros q Hq. rewrite (H2 q Hq). apply put_file_other, Hq. }
    assert (Lo : w_stdout (opened (File p) w) = w_stdout w /\ forall q, q <> p -> mget String.eqb (w_files (opened (File p) w)) q = mget String.eqb (w_files w) q).
    { split; [reflexivity|]. intros q Hq. unfold opened. cbn [w_files]. apply (mget_mset_ne _ _ _ String.eqb_eq), Hq. }
    destruct (wr 0); [|intros [= <- _]; exact Lo]. intros H. apply L in H as [H1 H2]. split; [rewrite H1; exact (proj1 Lo)|]. intros q Hq. rewrite (H2 q Hq), (put_file_other _ _ _ _ Hq). apply Lo, Hq.
  Qed.
End WriteP.

(** ** The options of controller-gen *)
Lemma nodup_app {X} (l1 l2 : list X) : NoDup l1 -> NoDup l2 -> (forall x, In x l1 -> ~ In x l2) -> NoDup (l1 ++ l2).
Proof.
  induction l1 as [|x l1 IH]; simpl; intros N1 N2 H; [exact N2|]. inversion N1; subst. constructor; [|apply IH; auto]. intros Hin. apply in_app_or in Hin as [Hin|Hin]; [contradiction|]. exact (H x (or_introl eq_refl) Hin).
Qed.
Lemma registered_in {A} (ds : list (def A)) d : NoDup (map d_name ds) -> In d ds -> registered_as ds (d_target d) (d_name d) d.
Proof.
  intros N Hin. apply in_split in Hin as (l1 & l2 & ->). exists l1, l2. repeat split; auto. intros d' Hd [_ E]. rewrite map_app in N. simpl in N. apply NoDup_remove_2 in N. apply N, in_or_app. right. rewrite <- E. apply in_map, Hd.
Qed.
Section MainOptions.
  Variable gens : list string.
  Variable rs : string -> list string.
  Variable rs_default : list string.
  (** Names as in main.go: distinct, without ':' or '=', not "paths". *)
  Hypothesis Ngens : NoDup gens.
  Hypothesis Nrs : forall g, NoDup (rs g).
  Hypothesis Nrsd : NoDup rs_default.
  Hypothesis gens_plain : forall g, In g gens -> has_char ":" g = false /\ has_char "=" g = false /\ g <> "" /\ g <> "paths".
  Hypothesis rs_plain : forall g r, In r (rs g) -> has_char ":" r = false /\ has_char "=" r = false.
  Hypothesis rsd_plain : forall r, In r rs_default -> has_char ":" r = false /\ has_char "=" r = false.
  Notation ds := (option_defs gens rs rs_default).

  Lemma def_cases d : In d ds <-> (exists g, In g gens /\ d = mkDef g DescribesPackage (KGen g)) \/
    (exists g r, In g gens /\ In r (rs g) /\ d = mkDef ("output:" ++ g ++ ":" ++ r)%string DescribesPackage (KRule r)) \/
    (exists r, In r rs_default /\ d = mkDef ("output:" ++ r)%string DescribesPackage (KRule r)) \/ d = mkDef "paths" DescribesPackage KPaths.
  Proof.
    unfold option_defs. rewrite !in_app_iff, in_flat_map, in_map_iff. cbn [In]. split.
    - intros [(g & Hg & [<-|Hr])|[(r & <- & Hr)|[<-|[]]]]; [left; exists g; auto| |right; right; left; exists r; auto|auto]. apply in_map_iff in Hr as (r & <- & Hr). right. left. exists g, r. auto.
    - intros [(g & Hg & ->)|[(g & r & Hg & Hr & ->)|[(r & Hr & ->)| ->]]].
      + left. exists g. auto.
      + left. exists g. split; [exact Hg|]. right. apply in_map_iff. exists r. auto.
      + right. left. exists r. auto.
      + auto.
  Qed.
  Lemma app_inj_l (a b c : string) : (a ++ b = a ++ c)%string -> b = c.
  Proof. induction a as [|x a IH]; simpl; [auto|]. intros [= H]. auto. Qed.
  Lemma out_inj g r g' r' : has_char ":" g = false -> has_char ":" g' = false -> ("output:" ++ g ++ ":" ++ r = "output:" ++ g' ++ ":" ++ r')%string -> g = g' /\ r = r'.
  Proof. intros H H' E. apply app_inj_l in E. exact (cut_at_char_unique ":" g r g' r' H H' E). Qed.
  Lemma out_colon s : has_char ":" ("output:" ++ s)%string = true.
  Proof. reflexivity. Qed.

  Lemma names_nodup : NoDup (map d_name ds).
  Proof.
    unfold option_defs. rewrite !map_app. apply nodup_app; [|apply nodup_app|].
    - assert (Hp : forall g, In g gens -> has_char ":" g = false) by (intros g Hg; apply gens_plain, Hg). clear gens_plain. induction gens as [|g l IH]; [constructor|].
      cbn [flat_map]. rewrite map_app. inversion Ngens as [|? ? Hng Nl]; subst. apply nodup_app; [|apply IH; auto with datatypes|].
      + cbn [map d_name]. constructor.
        * rewrite map_map. intros Hin. apply in_map_iff in Hin as (r & E & _). cbn [d_name] in E. pose proof (Hp g (or_introl eq_refl)) as Hc. rewrite <- E, out_colon in Hc. discriminate.
        * rewrite map_map. apply (nodup_map_inj (fun r => d_name (mkDef ("output:" ++ g ++ ":" ++ r)%string DescribesPackage (KRule r))) (rs g) (Nrs g)). intros a b _ _ E. cbn [d_name] in E. exact (proj2 (out_inj g a g b (Hp g (or_introl eq_refl)) (Hp g (or_introl eq_refl)) E)).
      + intros n Hn Hn'. apply in_map_iff in Hn' as (d & Ed & Hd). apply in_flat_map in Hd as (g' & Hg' & Hd).
        assert (Hpg := Hp g (or_introl eq_refl)). assert (Hpg' := Hp g' (or_intror Hg')).
        assert (Cases : forall h, In n (map d_name (mkDef h DescribesPackage (KGen h) :: map (fun r => mkDef ("output:" ++ h ++ ":" ++ r)%string DescribesPackage (KRule r)) (rs h))) -> n = h \/ exists r, n = ("output:" ++ h ++ ":" ++ r)%string).
        { intros h [<-|H]; [left; reflexivity|]. rewrite map_map in H. apply in_map_iff in H as (r & <- & _). right. exists r. reflexivity. }
        assert (Hnd : In n (map d_name (mkDef g' DescribesPackage (KGen g') :: map (fun r => mkDef ("output:" ++ g' ++ ":" ++ r)%string DescribesPackage (KRule r)) (rs g')))) by (rewrite <- Ed; apply in_map; exact Hd).
        apply Cases in Hn. apply Cases in Hnd. assert (g <> g') by (intros ->; contradiction).
        destruct Hn as [->|[r Er]], Hnd as [E'|[r' Er']].
        * contradiction.
        * rewrite Er', out_colon in Hpg. discriminate.
        * subst n. rewrite <- E', out_colon in Hpg'. discriminate.
        * rewrite Er in Er'. apply (out_inj _ _ _ _ Hpg Hpg') in Er' as [E _]. contradiction.
    - rewrite map_map. apply (nodup_map_inj (fun r => d_name (mkDef ("output:" ++ r)%string DescribesPackage (KRule r))) rs_default Nrsd). intros a b _ _ E. exact (app_inj_l "output:" a b E).
    - repeat constructor. simpl. tauto.
    - intros n Hn [<-|[]]. rewrite map_map in Hn. apply in_map_iff in Hn as (r & E & _). cbn [d_name] in E. discriminate.
    - intros n Hn Hn'. apply in_map_iff in Hn as (d & <- & Hd). apply in_flat_map in Hd as (g & Hg & Hd). destruct (gens_plain g Hg) as (G1 & G2 & G3 & G4).
      apply in_app_or in Hn' as [Hn'|[E|[]]].
      + rewrite map_map in Hn'. apply in_map_iff in Hn' as (r' & E & Hr'). cbn [d_name] in E. destruct (rsd_plain r' Hr') as [R1 _]. destruct Hd as [<-|Hd].
        * cbn [d_name] in E. rewrite <- E, out_colon in G1. discriminate.
        * apply in_map_iff in Hd as (r & <- & Hr). cbn [d_name] in E. apply app_inj_l in E. rewrite E, has_char_app in R1. simpl in R1. rewrite orb_true_r in R1. discriminate.
      + destruct Hd as [<-|Hd]; [cbn [d_name] in E; congruence|]. apply in_map_iff in Hd as (r & <- & Hr). cbn [d_name] in E. discriminate.
  Qed.

  Lemma main_registered d : In d ds -> registered_as ds DescribesPackage (d_name d) d.
  Proof. intros H. pose proof (registered_in ds d names_nodup H) as R. replace (d_target d) with DescribesPackage in R; [exact R|]. apply def_cases in H as [(? & _ & ->)|[(? & ? & _ & _ & ->)|[(? & _ & ->)| ->]]]; reflexivity. Qed.

  Lemma gen_option g rest : In g gens -> lookup _ (register_all _ ds) ("+" ++ g) DescribesPackage = Some (mkDef g DescribesPackage (KGen g)) /\
    (forall a, has_char "=" a = false -> has_char ":" a = false -> (forall d, In d ds -> d_name d <> (g ++ ":" ++ a)%string) -> lookup _ (register_all _ ds) ("+" ++ (g ++ ":" ++ a) ++ "=" ++ rest) DescribesPackage = Some (mkDef g DescribesPackage (KGen g))).
  Proof.
    intros Hg. destruct (gens_plain g Hg) as (G1 & G2 & G3 & G4). assert (Hin : In (mkDef g DescribesPackage (KGen g)) ds) by (apply def_cases; left; exists g; auto). split.
    - apply lookup_plain; [exact G2|]. exact (main_registered _ Hin).
    - intros a Ha Ha' Hno. apply (lookup_colon _ ds DescribesPackage "+" g a rest); [exact G2|exact Ha|exact Ha'|]. right. split; [|exact (main_registered _ Hin)]. intros d Hd [_ E]. exact (Hno d Hd E).
  Qed.
  Lemma rule_option g r rest : In g gens -> In r (rs g) -> lookup _ (register_all _ ds) ("+" ++ ("output:" ++ g ++ ":" ++ r) ++ "=" ++ rest) DescribesPackage = Some (mkDef ("output:" ++ g ++ ":" ++ r)%string DescribesPackage (KRule r))
    /\ lookup _ (register_all _ ds) ("+" ++ ("output:" ++ g ++ ":" ++ r)) DescribesPackage = Some (mkDef ("output:" ++ g ++ ":" ++ r)%string DescribesPackage (KRule r)).
  Proof.
    intros Hg Hr. destruct (gens_plain g Hg) as (G1 & G2 & G3 & G4). destruct (rs_plain g r Hr) as [R1 R2].
    assert (Hin : In (mkDef ("output:" ++ g ++ ":" ++ r)%string DescribesPackage (KRule r)) ds) by (apply def_cases; right; left; exists g, r; auto). split.
    - apply (lookup_colon _ ds DescribesPackage "+" ("output:" ++ g)%string r rest); [simpl; exact G2|exact R2|exact R1|]. left. exact (main_registered _ Hin).
    - apply lookup_plain; [rewrite !has_char_app; simpl; rewrite G2, R2; reflexivity|]. exact (main_registered _ Hin).
  Qed.
  Lemma default_option r rest : In r rs_default -> lookup _ (register_all _ ds) ("+" ++ ("output:" ++ r) ++ "=" ++ rest) DescribesPackage = Some (mkDef ("output:" ++ r)%string DescribesPackage (KRule r))
    /\ lookup _ (register_all _ ds) ("+" ++ ("output:" ++ r)) DescribesPackage = Some (mkDef ("output:" ++ r)%string DescribesPackage (KRule r)).
  Proof.
    intros Hr. destruct (rsd_plain r Hr) as [R1 R2].
    assert (Hin : In (mkDef ("output:" ++ r)%string DescribesPackage (KRule r)) ds) by (apply def_cases; right; right; left; exists r; auto). split.
    - apply (lookup_colon _ ds DescribesPackage "+" "output" r rest); [reflexivity|exact R2|exact R1|]. left. exact (main_registered _ Hin).
    - apply lookup_plain; [rewrite !has_char_app; simpl; rewrite R2; reflexivity|]. exact (main_registered _ Hin).
  Qed.
  Lemma main_rule_names n r : In (mkDef n DescribesPackage (KRule r)) ds -> default_name n \/ exists g, gen_name n g.
  Proof.
    intros H. apply def_cases in H as [(? & _ & [=])|[(g & r' & Hg & Hr & [= -> _])|[(r' & Hr & [= -> _])| [=]]]].
    - right. exists g. exists r'. destruct (gens_plain g Hg) as (G1 & _ & G3 & _). auto.
    - left. exists r'. split; [reflexivity|]. apply rsd_plain, Hr.
  Qed.
  Lemma main_rule_defs G (parse : option_kind -> string -> option (optval G)) :
    (forall k text r, parse k text = Some (VOut r) -> exists x, k = KRule x) ->
    forall raw n r, means G option_kind parse (register_all _ ds) raw (n, VOut r) -> default_name n \/ exists g, gen_name n g.
  Proof.
    intros Hp raw n r (text & d & _ & Hl & Hv & Hn). cbn [fst snd] in Hv, Hn. destruct (Hp _ _ _ Hv) as [x Hx]. destruct (lookup_in _ _ _ _ _ Hl) as [Hin Ht].
    apply (main_rule_names n x). destruct d as [dn dt dp]. cbn [d_payload d_target d_name] in *. subst. exact Hin.
  Qed.
End MainOptions.
