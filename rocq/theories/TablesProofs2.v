(** * Proofs about the marker tables: what texts become. *)
From Coq Require Import List String Ascii Bool Arith ZArith QArith Permutation Sorting.Sorted Lia.
From Verif Require Import GoLib GoLibFacts HelpgenSpec HelpgenProofs2 MapFacts DocModel ScanModel RegistryModel RegistrySpec RegistryProofs RegistryProps ParseModel ParseSpec ScanProofs ParseProofs ParseGrammar ParseDefs
  SchemaModel MarkModel CrdModel CollectModel TablesModel TablesSpec TablesProofs.
From Verif Require RbacModel WebhookModel.
Import ListNotations.
Open Scope string_scope.
Open Scope list_scope.

(** ** Shapes of the definitions *)
Definition value_field (k : kind) : string := match k with TDefault | TExample | TTitle => "Value" | _ => "" end.


Definition param (nf : string * field) : string * arg * bool := (fst nf, f_arg (snd nf), negb (f_optional (snd nf))).
Definition param_dec (x y : string * arg * bool) : {x = y} + {x <> y}. Proof. decide equality; [apply Bool.bool_dec|]. decide equality; [apply arg_dec|apply string_dec]. Defined.
Fixpoint nodupb (l : list string) : bool := match l with [] => true | x :: l' => negb (existsb (String.eqb x) l') && nodupb l' end.
Lemma nodupb_nodup l : nodupb l = true -> NoDup l.
Proof.
  induction l as [|x l IH]; cbn; [constructor|]. intros (A & B)%andb_true_iff. constructor; [|auto]. intros I. apply negb_true_iff in A.
  assert (existsb (String.eqb x) l = true) by (apply existsb_exists; exists x; split; [exact I|apply String.eqb_refl]). congruence.
Qed.
(** The fields that the arguments of a struct set *)
Definition pairs_of (k : kind) : list (string * string) :=
  match make_definition (go_output k) with Some d => map (fun nf => (fst nf, f_name (snd nf))) (d_fields d) | None => [] end.
Definition pair_dec (x y : string * string) : {x = y} + {x <> y}. Proof. decide equality; apply string_dec. Defined.
Definition shape_ok (d : def payload) : bool :=
  let k := p_kind (d_payload d) in
  let fs := d_fields (p_def (d_payload d)) in
  d_strict (p_def (d_payload d)) &&
  match takes_one k with
  | Some a => match fs with [(n, f)] => String.eqb n "" && String.eqb (f_name f) (value_field k) && (if arg_dec (f_arg f) a then true else false) &&
                Bool.eqb (f_optional f) (String.eqb (d_name d) "groupName") | _ => false end
  | None =>
      match k with
      | TRaw => match fs with [(n, f)] => String.eqb n "" && (if arg_dec (f_arg f) ARaw then true else false) | _ => false end
      | TKubernetesDefault => true
      | _ => if list_eq_dec param_dec (map param fs) (parameters k) then
               (if list_eq_dec pair_dec (map (fun nf => (fst nf, f_name (snd nf))) fs) (pairs_of k) then true else false) &&
               nodupb (map fst fs) && nodupb (map (fun nf => f_name (snd nf)) fs) && negb (anonymous_field (p_def (d_payload d)))
             else false
      end
  end.
Lemma shapes g d : In d (made (table g)) -> shape_ok d = true.
Proof. revert g d. apply each_def. vm_compute. reflexivity. Qed.

Definition no_prefix (d d' : def payload) : bool := match parameters (p_kind (d_payload d)) with [] => true | _ => negb (has_prefix (d_name d ++ ":") (d_name d')) end.
Lemma struct_prefix g g' d d' a : In d (made (table g)) -> In d' (made (table g')) -> parameters (p_kind (d_payload d)) <> [] -> d_name d' <> (d_name d ++ ":" ++ a)%string.
Proof.
  intros H H' P E. assert (F := each_pair no_prefix ltac:(vm_compute; reflexivity) g g' d d' H H'). unfold no_prefix in F. rewrite E in F.
  rewrite <- (str_app_assoc (d_name d) ":" a), has_prefix_app in F. destruct (parameters _); [congruence|discriminate].
Qed.
Fixpoint identb (s : string) : bool := match s with EmptyString => true | String a s' => is_ident a && identb s' end.
Lemma identb_all s : identb s = true -> all_chars word_char s.
Proof.
  induction s as [|a s IH]; cbn; [intros _; apply all_nil|]. intros (A & B)%andb_true_iff. apply all_cons. split; [apply is_ident_iff, A|apply IH, B].
Qed.
Definition nameb (s : string) : bool := match s with String a s' => is_letter a && identb s | EmptyString => false end.
Lemma nameb_text s : nameb s = true -> name_text s.
Proof. destruct s as [|a s]; [discriminate|]. unfold nameb. intros (A & B)%andb_true_iff. split; [exists a, s; split; [reflexivity|apply is_letter_iff, A]|apply identb_all, B]. Qed.
Lemma parameter_names k n a r : In (n, a, r) (parameters k) -> name_text n.
Proof.
  intros H. apply nameb_text. assert (F : forallb (fun p => nameb (fst (fst p))) (parameters k) = true) by (destruct k; vm_compute; reflexivity).
  rewrite forallb_forall in F. apply (F (n, a, r)), H.
Qed.

Lemma in_shape gs d : In d (definitions gs) -> shape_ok d = true.
Proof. intros H. apply in_definitions in H as (g & _ & H). exact (shapes g d H). Qed.
Lemma strict gs d : In d (definitions gs) -> d_strict (p_def (d_payload d)) = true.
Proof. intros H. apply in_shape in H. unfold shape_ok in H. apply andb_true_iff in H. tauto. Qed.
Lemma one_shape gs d a : In d (definitions gs) -> takes_one (p_kind (d_payload d)) = Some a ->
  exists f, d_fields (p_def (d_payload d)) = [("", f)] /\ f_name f = value_field (p_kind (d_payload d)) /\ f_arg f = a /\ f_optional f = String.eqb (d_name d) "groupName".
Proof.
  intros H T. apply in_shape in H. unfold shape_ok in H. rewrite T in H. apply andb_true_iff in H as [_ H]. destruct (d_fields _) as [|[n f] [|]]; try discriminate.
  rewrite !andb_true_iff in H. destruct H as (((H1 & H2) & H3) & H4). apply String.eqb_eq in H1, H2. apply Bool.eqb_prop in H4. destruct (arg_dec (f_arg f) a); [|discriminate]. subst n. eauto.
Qed.
Lemma struct_shape gs d : In d (definitions gs) -> takes_one (p_kind (d_payload d)) = None -> p_kind (d_payload d) <> TRaw -> p_kind (d_payload d) <> TKubernetesDefault ->
  let fs := d_fields (p_def (d_payload d)) in
  map param fs = parameters (p_kind (d_payload d)) /\ map (fun nf => (fst nf, f_name (snd nf))) fs = pairs_of (p_kind (d_payload d)) /\
  NoDup (map fst fs) /\ NoDup (map (fun nf => f_name (snd nf)) fs) /\ anonymous_field (p_def (d_payload d)) = false.
Proof.
  intros H T N1 N2 fs. apply in_shape in H. unfold shape_ok in H. rewrite T in H. apply andb_true_iff in H as [_ H].
  assert (E : (if list_eq_dec param_dec (map param fs) (parameters (p_kind (d_payload d))) then
               (if list_eq_dec pair_dec (map (fun nf => (fst nf, f_name (snd nf))) fs) (pairs_of (p_kind (d_payload d))) then true else false) &&
               nodupb (map fst fs) && nodupb (map (fun nf => f_name (snd nf)) fs) && negb (anonymous_field (p_def (d_payload d))) else false) = true).
  { fold fs in H. destruct (p_kind (d_payload d)); try exact H; try congruence; discriminate T. }
  destruct (list_eq_dec param_dec _ _) as [E1|]; [|discriminate]. destruct (list_eq_dec pair_dec _ _) as [E2|]; [|discriminate]. rewrite !andb_true_iff in E. destruct E as (((_ & A) & B) & C).
  repeat split; auto using nodupb_nodup. apply negb_true_iff, C.
Qed.

Section Read.
Variable fval : string -> option Q.
Variable json_read : string -> option json.

Lemma parse_value_eq d raw s out : p_kind (d_payload d) <> TKubernetesDefault ->
  argument_text (negb (anonymous_field (p_def (d_payload d))) && negb (no_fields (p_def (d_payload d)))) raw = Some s ->
  parse_fields (float_ok fval) (p_def (d_payload d)) s = Ok out -> parse_value fval json_read d raw = Some (build fval (p_kind (d_payload d)) out).
Proof. intros N A P. unfold parse_value, parse_marker. rewrite A. cbn [option_map]. rewrite P. destruct (p_kind (d_payload d)); congruence. Qed.

(** ** JSON *)
Scheme as_json_mut := Minimality for as_json Sort Prop with as_jsons_mut := Minimality for as_jsons Sort Prop with as_members_mut := Minimality for as_members Sort Prop.
Combined Scheme as_json_ind3 from as_json_mut, as_jsons_mut, as_members_mut.
Definition member (kv : string * value) : string * json := match kv with (k, w) => (k, any_json fval w) end.
Lemma member_fst kv : fst (member kv) = fst kv. Proof. destruct kv; reflexivity. Qed.
Lemma sorted_members (m m' : list (string * value)) : Permutation m m' -> StronglySorted key_order m' ->
  sort_by (fun a b => str_ltb (fst a) (fst b)) (map member m) = map member m'.
Proof.
  intros P S. set (lt := fun a b : string * json => str_ltb (fst a) (fst b)).
  assert (S' : StronglySorted (fun a b => lt a b = true) (map member m')).
  { clear P. induction S as [|x l S IH F]; cbn [map]; constructor; [exact IH|]. apply Forall_map. eapply Forall_impl; [|exact F]. intros y H. unfold lt. rewrite !member_fst. exact H. }
  apply strongly_sorted_unique_on with (le := le_of _ lt).
  - intros x y Hx Hy L1 L2. apply sort_by_in in Hx, Hy. assert (Px : In x (map member m')) by (eapply Permutation_in; [apply Permutation_map, P|exact Hx]).
    assert (Py : In y (map member m')) by (eapply Permutation_in; [apply Permutation_map, P|exact Hy]). unfold le_of, lt in L1, L2.
    assert (E : fst x = fst y) by (apply str_ltb_total; assumption). clear - S' Px Py E. induction S' as [|z l S IH F]; [destruct Px|]. rewrite Forall_forall in F.
    destruct Px as [->|Px], Py as [->|Py]; auto.
    + specialize (F y Py). unfold lt in F. rewrite E, str_ltb_irrefl in F. discriminate.
    + specialize (F x Px). unfold lt in F. rewrite E, str_ltb_irrefl in F. discriminate.
  - apply sort_by_sorted; unfold lt; intros; [eapply str_ltb_trans; eassumption|apply str_ltb_irrefl|eapply str_ltb_negtrans; eassumption].
  - clear P. induction S' as [|x l S2 IH F]; constructor; [apply IH; now inversion S|]. eapply Forall_impl; [|exact F]. intros y H. unfold le_of. apply str_ltb_asym, H.
  - rewrite sort_by_perm. apply Permutation_map, P.
Qed.
Lemma as_json_eq : (forall v j, as_json fval v j -> any_json fval v = j) /\ (forall l js, as_jsons fval l js -> map (any_json fval) l = js) /\ (forall l js, as_members fval l js -> map member l = js).
Proof.
  apply as_json_ind3; cbn [any_json map]; intros; subst; auto.
  - unfold number. rewrite H. reflexivity.
  - cbv beta. change (fun kv : string * value => let (k, w) := kv in (k, any_json fval w)) with member. f_equal. apply sorted_members; assumption.
Qed.

(** ** Named arguments *)
Lemma nodup_map_inj {A B} (f : A -> B) l x y : NoDup (map f l) -> In x l -> In y l -> f x = f y -> x = y.
Proof.
  induction l as [|z l IH]; cbn; [tauto|]. intros N Hx Hy E. inversion N as [|? ? N1 N2]; subst. destruct Hx as [->|Hx], Hy as [->|Hy]; auto.
  - elim N1. rewrite E. apply in_map, Hy.
  - elim N1. rewrite <- E. apply in_map, Hx.
Qed.
Definition fieldless (a : string * field * value) : string * value := (fst (fst a), snd a).
Lemma args_arguments k d s l : map param (d_fields d) = parameters k -> NoDup (map fst (d_fields d)) -> args_text fval (parameters k) s l ->
  exists l', arguments (float_ok fval) d s l' /\ map fieldless l' = l /\ forall a, In a l' -> In (fst a) (d_fields d).
Proof.
  intros M N. assert (D : forall n a r, In (n, a, r) (parameters k) -> exists f, In (n, f) (d_fields d) /\ declared d n f /\ f_arg f = a).
  { intros n a r H. rewrite <- M in H. apply in_map_iff in H as ([n' f] & E & H). injection E as <- <- _. exists f. split; [exact H|]. split; [|reflexivity].
    apply declared_iff. apply (in_mget _ _ _ String.eqb_eq); assumption. }
  induction 1 as [w n w1 w2 s a r v b W W1 P Bf De|w n w1 w2 s w3 a r v b rest l W W1 P Bf De Af At IH]; destruct (D n a r P) as (f & I & Dc & <-).
  - exists [(n, f, v)]. split; [apply (arguments_last _ _ w n w1 w2 s f v b); auto; eapply parameter_names; eassumption|]. split; [reflexivity|]. intros x [<-|[]]. exact I.
  - destruct IH as (l' & A' & <- & I'). exists ((n, f, v) :: l'). split; [apply (arguments_more _ _ w n w1 w2 s w3 f v b rest l'); auto; eapply parameter_names; eassumption|]. split; [reflexivity|].
    intros x [<-|H]; [exact I|apply I', H].
Qed.
Lemma fields_get d l' l out n f : NoDup (map fst (d_fields d)) -> NoDup (map (fun nf => f_name (snd nf)) (d_fields d)) -> map fieldless l' = l ->
  (forall a, In a l' -> In (fst a) (d_fields d)) -> (forall k v, mget String.eqb out k = Some v <-> last_value (sets l') k v) -> In (n, f) (d_fields d) ->
  (forall v, last_value l n v -> mget String.eqb out (f_name f) = Some v) /\ (~ In n (map fst l) -> mget String.eqb out (f_name f) = None).
Proof.
  intros N1 N2 M I G Hf.
  assert (F : forall a, In a l' -> f_name (snd (fst a)) = f_name f -> fst a = (n, f)). { intros a H E. apply (nodup_map_inj (fun nf => f_name (snd nf)) (d_fields d)); auto. }
  split.
  - intros v (x & y & E & Ny). apply G. rewrite E in M. apply map_eq_app in M as (x' & y' & -> & <- & M). destruct y' as [|[[n' f'] v'] y']; [discriminate|]. cbn in M. injection M as -> -> <-.
    assert (f' = f) as ->. { assert (A : (n, f') = (n, f)); [|congruence]. apply (nodup_map_inj fst (d_fields d)); auto. apply (I (n, f', v)). apply in_elt. }
    exists (sets x'), (sets y'). split; [unfold sets; rewrite map_app; reflexivity|]. intros H. unfold sets in H. rewrite map_map in H. cbn in H. apply in_map_iff in H as (a & E' & Ha).
    apply Ny. rewrite map_map. apply in_map_iff. exists a. split; [|exact Ha]. unfold fieldless. cbn. rewrite (F a); auto. apply in_or_app. right. right. exact Ha.
  - intros H. destruct (mget String.eqb out (f_name f)) as [v|] eqn:E; [|reflexivity]. apply G in E as (x & y & E & _). exfalso. apply H. subst l. rewrite map_map.
    assert (A : In (f_name f, v) (sets l')) by (rewrite E; apply in_elt). unfold sets in A. apply in_map_iff in A as (a & E' & Ha). injection E' as E' _. apply in_map_iff. exists a. split; [|exact Ha].
    unfold fieldless. cbn. now rewrite (F a Ha E').
Qed.

Section Getters.
  Variables (out l : list (string * value)) (ps : list (string * string)).
  Hypothesis G : forall n fld, In (n, fld) ps -> (forall v, last_value l n v -> mget String.eqb out fld = Some v) /\ (~ In n (map fst l) -> mget String.eqb out fld = None).
  Lemma get_str n fld s : In (n, fld) ps -> the_str l n s -> str_of out fld = s.
  Proof. intros H. destruct (G n fld H) as [A B]. unfold str_of. intros [E|[E ->]]; [now rewrite (A _ E)|now rewrite (B E)]. Qed.
  Lemma get_int n fld z : In (n, fld) ps -> the_int l n z -> int_of out fld = z.
  Proof. intros H. destruct (G n fld H) as [A B]. unfold int_of. intros [E|[E ->]]; [now rewrite (A _ E)|now rewrite (B E)]. Qed.
  Lemma get_bool n fld b : In (n, fld) ps -> the_bool l n b -> bool_of out fld = b.
  Proof. intros H. destruct (G n fld H) as [A B]. unfold bool_of. intros [E|[E ->]]; [now rewrite (A _ E)|now rewrite (B E)]. Qed.
  Lemma get_strs n fld ss : In (n, fld) ps -> the_strs l n ss -> strs_of out fld = ss.
  Proof. intros H. destruct (G n fld H) as [A B]. unfold strs_of. intros [E|[E ->]]; [rewrite (A _ E), map_map; apply map_id|now rewrite (B E)]. Qed.
  Lemma get_ptr_str n fld o : In (n, fld) ps -> the_ptr VStr l n o -> ptr_str_of out fld = o.
  Proof. intros H. destruct (G n fld H) as [A B]. unfold ptr_str_of. destruct o; intros E; [now rewrite (A _ E)|now rewrite (B E)]. Qed.
  Lemma get_ptr_int n fld o : In (n, fld) ps -> the_ptr VInt l n o -> ptr_int_of out fld = o.
  Proof. intros H. destruct (G n fld H) as [A B]. unfold ptr_int_of. destruct o; intros E; [now rewrite (A _ E)|now rewrite (B E)]. Qed.
  Lemma get_ptr_bool n fld o : In (n, fld) ps -> the_ptr VBool l n o -> ptr_bool_of out fld = o.
  Proof. intros H. destruct (G n fld H) as [A B]. unfold ptr_bool_of. destruct o; intros E; [now rewrite (A _ E)|now rewrite (B E)]. Qed.
End Getters.
Lemma named_build k l out v : (forall n fld, In (n, fld) (pairs_of k) -> (forall v, last_value l n v -> mget String.eqb out fld = Some v) /\ (~ In n (map fst l) -> mget String.eqb out fld = None)) ->
  named_value l k v -> build fval k out = v.
Proof.
  intros G H. assert (K : forall n fld, (if in_dec pair_dec (n, fld) (pairs_of k) then true else false) = true -> In (n, fld) (pairs_of k)) by (intros; destruct (in_dec _ _ _); [assumption|discriminate]).
  destruct H; [| | | | | | | |destruct h|destruct w]; cbn [build];
  repeat match goal with
  | E : the_str l ?n ?s |- context [str_of out ?f] => rewrite (get_str out l _ G n f s) by (assumption || (apply K; vm_compute; reflexivity)); clear E
  | E : the_int l ?n ?s |- context [int_of out ?f] => rewrite (get_int out l _ G n f s) by (assumption || (apply K; vm_compute; reflexivity)); clear E
  | E : the_bool l ?n ?s |- context [bool_of out ?f] => rewrite (get_bool out l _ G n f s) by (assumption || (apply K; vm_compute; reflexivity)); clear E
  | E : the_strs l ?n ?s |- context [strs_of out ?f] => rewrite (get_strs out l _ G n f s) by (assumption || (apply K; vm_compute; reflexivity)); clear E
  | E : the_ptr VStr l ?n ?s |- context [ptr_str_of out ?f] => rewrite (get_ptr_str out l _ G n f s) by (assumption || (apply K; vm_compute; reflexivity)); clear E
  | E : the_ptr VInt l ?n ?s |- context [ptr_int_of out ?f] => rewrite (get_ptr_int out l _ G n f s) by (assumption || (apply K; vm_compute; reflexivity)); clear E
  | E : the_ptr VBool l ?n ?s |- context [ptr_bool_of out ?f] => rewrite (get_ptr_bool out l _ G n f s) by (assumption || (apply K; vm_compute; reflexivity)); clear E
  end; reflexivity.
Qed.
Lemma one_build k a x v : takes_one k = Some a -> one_value fval k x v -> build fval k [(value_field k, x)] = v.
Proof.
  intros _ H. destruct as_json_eq as (J & Js & _).
  destruct H; cbn [build value_field]; unfold str_of, int_of, bool_of, num_of, any_of, anys_of, number; cbn [mget String.eqb Ascii.eqb Bool.eqb]; try reflexivity;
  repeat match goal with
  | E : fval _ = Some _ |- _ => rewrite E; clear E
  | E : as_jsons _ _ _ |- _ => rewrite (Js _ _ E); clear E
  | E : as_json _ _ _ |- _ => rewrite (J _ _ E); clear E
  end; reflexivity.
Qed.
End Read.
