(** * Generated DeepCopy methods: the code compiles (C42), and where it does not *)

From Coq Require Import String List Bool Arith Lia.
Import ListNotations.
From Verif Require Import GoLib DeepModel DeepSpec DeepProofs DeepProofs2 DeepTypes DeepTypesProofs DeepEnds DeepProps.
Open Scope string_scope.
Open Scope nat_scope.
Open Scope list_scope.

(** The body of a generated DeepCopyInto that was written without an error passes
    Go's type checker. *)
Theorem generated_code_checks decls M k n m ptr body :
  package decls M ->
  gen_methods decls k n = Some (m, []) -> m_into m = IntoGen ptr body ->
  check decls M (start_types n) body = true.
Proof.
  intros P Hg Hm. assert (H := methods_check decls M P k n m). rewrite Hm in H. now apply H.
Qed.
Print Assumptions generated_code_checks.

(** The meaning of "identical types" used by the checker. *)
Theorem checker_identity t u : ty_eqb t u = true <-> t = u.
Proof. split; [apply ty_eqb_eq|intros ->; apply ty_eqb_refl]. Qed.
Print Assumptions checker_identity.

(** The program of DeepProps.v is covered, and its methods have bodies. *)
Example ex_package : package ex_decls ex_meths.
Proof.
  constructor.
  - intros n m. ex_cases n; [discriminate..|]. now rewrite D.
  - intros n e. ex_cases n; [discriminate..|]. now rewrite D.
  - intros n e. ex_cases n; [discriminate..|]. now rewrite D.
  - intros n. ex_cases n; [| | |now rewrite D].
    + cbn. repeat split; try (now intros (? & ?)); try discriminate.
    + cbn. repeat split; try (now intros (? & ?)); discriminate.
    + exact I.
  - intros n. ex_cases n; [now split..|]. unfold needs_methods. rewrite D. intros [X|[X|((? & X) & _)]]; try discriminate X.
    now destruct X.
Qed.
Example ex_checked :
  match gen_methods ex_decls 10 "Node" with
  | Some (m, []) => match m_into m with
                    | IntoGen true body => List.length body = 7 /\ check ex_decls ex_meths (start_types "Node") body = true
                    | _ => False
                    end
  | _ => False
  end.
Proof. vm_compute. now split. Qed.

(** ** The generator returns (C43) *)

(** If no type contains itself and none leads back to itself by pointers, elements
    and map values alone, the generator returns for every type of the package. *)
Theorem generator_returns decls hold follow n :
  grounded decls hold follow ->
  exists k0 r, forall k, k0 <= k -> gen_methods decls k n = Some r.
Proof.
  intros G. destruct (methods_end decls hold follow G n) as (k0 & H0).
  assert (H1 := H0 k0 (le_n _)). destruct (gen_methods decls k0 n) as [r|] eqn:E; [|easy].
  exists k0, r. intros k Hk. replace k with ((k - k0) + k0) by lia. now apply methods_mono.
Qed.
Print Assumptions generator_returns.

(** Otherwise it recurses forever. *)
Theorem generator_runs_forever decls (S : ty -> Prop) n :
  (forall t, S t -> exists e, S e /\ again decls t e) ->
  S (TNamed n) -> d_copy (decls n) = None -> d_into (decls n) = false ->
  forall k, gen_methods decls k n = None.
Proof.
  intros HS Hn H1 H2 k. unfold gen_methods. now rewrite H1, H2, (runs_forever decls S HS k _ Hn).
Qed.
Print Assumptions generator_runs_forever.

Example ex_grounded : grounded ex_decls
  (fun n => if String.eqb n "Node" then 1 else 0) (fun n => 0).
Proof.
  constructor.
  - intros n m. ex_cases n; [| | |now rewrite D]; cbn; try easy.
    intros [<-|[<-|H]]; [cbn; lia..|easy].
  - intros n m. ex_cases n; [now cbn..|]. now rewrite D.
  - intros n m. ex_cases n; [discriminate..|]. now rewrite D.
Qed.

(** C43 does not hold of every Go package: for [type L []L], [type D map[string]D]
    and [type P *P] the generator never returns. *)
Definition loop_decls (n : string) : decl :=
  if String.eqb n "L" then mkdecl (TSlice (TNamed "L")) None false
  else if String.eqb n "D" then mkdecl (TMap str (TNamed "D")) None false
  else if String.eqb n "P" then mkdecl (TPtr (TNamed "P")) None false
  else mkdecl (TBasic false "int") None false.

Theorem generator_returns_refuted :
  (forall k, gen_methods loop_decls k "L" = None) /\
  (forall k, gen_methods loop_decls k "D" = None) /\
  (forall k, gen_methods loop_decls k "P" = None).
Proof.
  split; [|split]; intros k.
  - apply (generator_runs_forever _ (fun t => t = TNamed "L")); try easy.
    intros t ->. exists (TNamed "L"). split; [easy|]. split; [now right|]. now left.
  - apply (generator_runs_forever _ (fun t => t = TNamed "D")); try easy.
    intros t ->. exists (TNamed "D"). split; [easy|]. split; [now right|]. right. left.
    exists str. split; [easy|]. split; [apply flat_basic|]. now split.
  - apply (generator_runs_forever _ (fun t => t = TNamed "P" \/ t = TPtr (TNamed "P"))); try easy; [|now left].
    intros t Ht. exists (TPtr (TNamed "P")). split; [now right|]. destruct Ht as [->| ->].
    + split; [now left|]. right. right. now exists (TNamed "P").
    + split; [now left|]. right. right. now exists (TNamed "P").
Qed.
Print Assumptions generator_returns_refuted.

(** ** Shapes for which the generated code does not compile *)

(** type S struct { X <u> }
    type L []string
    type T struct { P *int }
    type PT *T
    type Time int64, with a manual DeepCopyInto on *Time
    type V []string, with a manual DeepCopy on V. *)
Definition one_decls (u : ty) (n : string) : decl :=
  if String.eqb n "S" then mkdecl (TStruct [u]) None false
  else if String.eqb n "L" then mkdecl (TSlice str) None false
  else if String.eqb n "T" then mkdecl (TStruct [TPtr (TBasic false "int")]) None false
  else if String.eqb n "PT" then mkdecl (TPtr (TNamed "T")) None false
  else if String.eqb n "Time" then mkdecl (TBasic false "int64") None true
  else if String.eqb n "V" then mkdecl (TSlice str) (Some false) false
  else mkdecl (TBasic false "int") None false.
(** Every type of the package has methods (all that the generator can give). *)
Definition all_meths (decls : string -> decl) (n : string) : meths :=
  match gen_methods decls 10 n with Some (m, _) => m | None => mkmeths NoCopy NoInto end.
(** Does the code for S compile?  [None]: the generator reported an error. *)
Definition compiles (u : ty) : option bool :=
  match gen_methods (one_decls u) 10 "S" with
  | Some (m, []) => match m_into m with
                    | IntoGen _ body => Some (check (one_decls u) (all_meths (one_decls u)) (start_types "S") body)
                    | _ => None
                    end
  | _ => None
  end.

(** Without any error being reported, the code does not compile for a field that is
    - a pointer to a named slice ([*L]): [*out = new([]string)];
    - a slice of pointers to a type with a manual method ([]*Time):
      [( *in)[i].DeepCopyInto(&( *out)[i])], a **Time;
    - a pointer to a pointer to such a type ( **Time);
    - of a named pointer type to a struct (PT): it has no methods;
    - a struct type literal with a reference (struct{ P *int }): nor has this. *)
Theorem generated_code_checks_refuted :
  compiles (TPtr (TNamed "L")) = Some false /\
  compiles (TSlice (TPtr (TNamed "Time"))) = Some false /\
  compiles (TPtr (TPtr (TNamed "Time"))) = Some false /\
  compiles (TNamed "PT") = Some false /\
  compiles (TStruct [TPtr (TBasic false "int")]) = Some false.
Proof. vm_compute. repeat split; reflexivity. Qed.
Print Assumptions generated_code_checks_refuted.

(** Neighbouring shapes that are fine. *)
Example compiles_ok :
  compiles (TPtr (TSlice str)) = Some true /\
  compiles (TSlice (TNamed "Time")) = Some true /\
  compiles (TPtr (TNamed "Time")) = Some true /\
  compiles (TMap str (TPtr (TNamed "Time"))) = Some true /\
  compiles (TSlice (TPtr (TNamed "T"))) = Some true /\
  compiles (TStruct [TBasic false "int"]) = Some true.
Proof. vm_compute. repeat split; reflexivity. Qed.

(** ** Code that compiles and does not make a copy *)

Definition one_zero (u : ty) (t : ty) : val :=
  if by_ref (under (one_decls u) t) then VNil else VBas "".

(** For a map whose values are pointers to a type with a DeepCopy on the value (V),
    the generated code follows a nil pointer in the map: DeepCopyInto panics. *)
Theorem deep_copy_nil_value_refuted :
  let u := TMap str (TPtr (TNamed "V")) in
  let h := [VAgg [VMapRef 1]; VMapData [(VBas "k", VNil)]; VAgg [VNil]] in
  compiles u = Some true /\
  den (one_decls u) h (TNamed "S") (VAgg [VMapRef 1]) (RStruct [RMap [VBas "k"] [RNil]]) [1] /\
  forall man k, into (one_decls u) (all_meths (one_decls u)) (one_zero u) (fun l => l) man k "S" (0, []) (2, []) h = None.
Proof.
  cbv zeta. split; [vm_compute; reflexivity|]. split.
  - eapply den_struct; [reflexivity|].
    apply (dens_cons _ _ _ _ _ _ _ _ [1] []); [|constructor].
    apply (den_map _ _ _ str (TPtr (TNamed "V")) 1 [(VBas "k", VNil)] [(VBas "k", VNil)] [RBas "k"] _ []); [reflexivity..| |easy| |].
    + repeat constructor; cbn; intuition discriminate.
    + apply (dens_cons _ _ _ _ _ _ _ _ [] []); [den_basic|constructor].
    + apply (dens_cons _ _ _ _ _ _ _ _ [] []); [now constructor|constructor].
  - intros man [|k]; reflexivity.
Qed.
Print Assumptions deep_copy_nil_value_refuted.

(** DeepCopyInto must not be called on a nil slice or map: it leaves an empty one
    that is not nil.  (DeepCopy does not; the comment of the generated method says
    "in must be non-nil".) *)
Theorem deep_copy_into_nil_refuted :
  let u := str in
  forall man k, exists h' b,
    into (one_decls u) (all_meths (one_decls u)) (one_zero u) (fun l => l) man (S k) "L" (0, []) (1, []) [VNil; VNil] = Some h' /\
    hread h' (1, []) = Some (VSlice b 0 0).
Proof. intros u man k. eexists. eexists. split; reflexivity. Qed.
Print Assumptions deep_copy_into_nil_refuted.

(** A value that is part of itself is never copied: the generated code recurses
    until the stack is full. *)
Definition ring_decls (n : string) : decl :=
  if String.eqb n "R" then mkdecl (TStruct [TPtr (TNamed "R")]) None false
  else mkdecl (TBasic false "int") None false.

Lemma write_other h (b : addr) w h' : hwrite h b w = Some h' -> fst b <> 0 -> nth_error h' 0 = nth_error h 0.
Proof.
  unfold hwrite. destruct (nth_error h (fst b)); [|discriminate]. destruct (put _ _ _); [|discriminate].
  intros H. injection H as <-. intros Hb. now apply set_nth_ne.
Qed.

(** type R struct { Next *R }, with a value that is its own Next. *)
Theorem deep_copy_cycle_refuted zero ord man k h b :
  nth_error h 0 = Some (VAgg [VPtr (0, [])]) -> fst b <> 0 ->
  into ring_decls (all_meths ring_decls) zero ord man k "R" (0, []) b h = None.
Proof.
  revert h b. induction k as [|k IH]; intros h b H0 Hb; [reflexivity|].
  set (J := into ring_decls (all_meths ring_decls) zero ord man k) in IH.
  change (exec_block ring_decls (all_meths ring_decls) zero ord man J (start "R" (0, []) b)
            [SSet star_out (ERead star_in);
             SIfSome (in_f 0)
               [SInOut (EAddr (in_f 0)) (EAddr (out_f 0));
                SSet star_out (ENew (TNamed "R"));
                SInto star_in (ERead star_out)]] h = None).
  clearbody J. cbn -[hwrite hread val_at].
  change (val_at (start "R" (0, []) b) star_in h) with (hread h (0, [])).
  unfold hread at 1. cbn [fst snd]. rewrite H0. cbn [get].
  destruct (hwrite h b _) as [h1|] eqn:E1; [|reflexivity].
  assert (H1 := write_other _ _ _ _ E1 Hb). rewrite H0 in H1.
  change (val_at (start "R" (0, []) b) (in_f 0) h1) with (hread h1 (0, [0])).
  unfold hread at 1. cbn [fst snd]. rewrite H1. cbn -[hwrite hread].
  destruct (hwrite (h1 ++ _) _ _) as [h2|] eqn:E2; [|reflexivity].
  assert (H2 := write_other _ _ _ _ E2 Hb). rewrite nth_error_app1 in H2
    by (apply nth_error_Some; rewrite H1; discriminate).
  rewrite H1 in H2. unfold val_at. cbn -[hwrite hread].
  assert (Hr : hread h2 (fst b, snd b ++ [0]) = Some (VPtr (List.length h1, []))).
  { unfold hwrite in E2. unfold hread. cbn [fst snd] in E2 |- *.
    destruct (nth_error (h1 ++ _) (fst b)) as [c|] eqn:Ec; [|discriminate E2].
    destruct (put c _ _) as [c'|] eqn:Ep; [|discriminate E2]. injection E2 as <-.
    rewrite set_nth_eq by (apply nth_error_Some; rewrite Ec; discriminate).
    now apply get_put in Ep. }
  rewrite Hr. cbn -[hwrite hread]. unfold hread at 1. cbn [fst snd]. rewrite H2. cbn -[hwrite hread].
  rewrite (IH h2 (List.length h1, []) H2); [reflexivity|].
  cbn. intros X. destruct h1; [discriminate H1|discriminate X].
Qed.
Print Assumptions deep_copy_cycle_refuted.
