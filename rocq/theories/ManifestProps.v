(** * C50: a manifest has one document for each object, with all that the object has but what is removed on purpose *)

From Coq Require Import String Ascii List Bool Arith Lia.
Import ListNotations.
From Verif Require Import GoLib GoLibFacts MapFacts GenallModel GenallProps ManifestModel ManifestSpec ManifestProofs.
Open Scope string_scope.
Open Scope nat_scope.
Open Scope list_scope.

Notation status := [Key "status"].
Notation timestamp := [Key "metadata"; Key "creationTimestamp"].
Notation preserved := [Key "spec"; Key "preserveUnknownFields"].

(** ** The transforms *)

(** What is written of a CRD: its status and the timestamp are not, nothing else is lost or changed, except that
    preserveUnknownFields is set if asked for. *)
Definition crd_written (preserve : option bool) (v v' : val) : Prop :=
  (forall p, below status p \/ below timestamp p -> look p v' = None) /\
  (forall p, ~ below status p -> ~ below timestamp p -> ~ below preserved p -> look p v' = look p v) /\
  match preserve with
  | Some value => look [Key "spec"] v = Some LMap -> look preserved v' = Some (LScalar (Bool value))
  | None => forall p, below preserved p -> look p v' = look p v
  end.

(** What is written of a role or webhook configuration. *)
Definition other_written (v v' : val) : Prop :=
  (forall p, below timestamp p -> look p v' = None) /\
  (forall p, ~ below timestamp p -> look p v' = look p v).

Lemma below_cons k p q : below (k :: p) q -> exists q', q = k :: q' /\ below p q'.
Proof. intros (r & ->). exists (p ++ r). split; auto. now exists r. Qed.

Lemma apart k p k' p' q : k <> k' -> below (k :: p) q -> ~ below (k' :: p') q.
Proof. intros N (r & ->) (r' & E). injection E. congruence. Qed.

Theorem crd_transforms_exact preserve obj : go_tree (Map obj) ->
  match apply_transforms (crd_transforms preserve) obj with
  | Ok obj' => look [Key "metadata"] (Map obj) = Some LMap /\ crd_written preserve (Map obj) (Map obj')
  | Err => False
  | Panic => look [Key "metadata"] (Map obj) <> Some LMap
  end.
Proof.
  intros G. unfold crd_transforms. cbn [app apply_transforms]. unfold remove_crd_status at 1.
  destruct (del_tree obj "status" G) as [G1 L1].
  assert (M : look [Key "metadata"] (Map (mdel String.eqb obj "status")) = look [Key "metadata"] (Map obj)).
  { apply (L1 [Key "metadata"]). now intros (r & [=]). }
  assert (C := creation_tree _ G1). destruct (remove_creation_timestamp (mdel String.eqb obj "status")) as [obj2| |].
  - destruct C as (C & G2 & L2). rewrite M in C.
    assert (R : forall p, ~ below status p -> ~ below timestamp p -> look p (Map obj2) = look p (Map obj)).
    { intros p A B. rewrite (proj2 (L2 p) B). now apply L1. }
    assert (Z : forall p, below status p \/ below timestamp p -> look p (Map obj2) = None).
    { intros p [A|A]; [|now apply L2]. rewrite (proj2 (L2 p)). now apply L1. revert A. now apply apart. }
    destruct preserve as [value|]; cbn [apply_transforms].
    + destruct (preserve_tree value obj2 G2) as (obj3 & E & G3 & P1 & P2 & P3). rewrite E. split; auto. split; [|split].
      * intros p A. rewrite P3. now apply Z. destruct A as [A|A]; revert A; now apply apart.
      * intros p A B D. rewrite P3 by auto. now apply R.
      * intros S. apply P1. rewrite R; auto; now intros (r & [=]).
    + split; auto. split; [|split]; auto. intros p A. apply R; revert A; now apply apart.
  - easy.
  - now rewrite M in C.
Qed.

Theorem other_transforms_exact obj : go_tree (Map obj) ->
  match apply_transforms other_transforms obj with
  | Ok obj' => look [Key "metadata"] (Map obj) = Some LMap /\ other_written (Map obj) (Map obj')
  | Err => False
  | Panic => look [Key "metadata"] (Map obj) <> Some LMap
  end.
Proof.
  intros G. cbn [other_transforms apply_transforms]. assert (C := creation_tree _ G).
  destruct (remove_creation_timestamp obj) as [obj2| |]; auto. destruct C as (C & _ & L). split; auto.
  split; intros p; apply L.
Qed.

(** ** The header *)

Theorem header_exact file year h : header_text file year = Some h <->
  match file with
  | None => h = ""
  | Some None => False
  | Some (Some text) => replaced " YEAR" (" " ++ year) text h
  end.
Proof.
  destruct file as [[text|]|]; cbn [header_text].
  - split.
    + intros [= <-]. now apply replace_spec.
    + intros R. f_equal. apply (replaced_unique " YEAR" (" " ++ year) text); auto. now apply replace_spec.
  - easy.
  - split; [now intros [= <-]|now intros ->].
Qed.

(** If the year is one line: the header has the lines of the file, comments are still comments, and there are no new separators. *)
Theorem header_lines text year h : header_text (Some (Some text)) year = Some h -> has_char newline year = false ->
  Forall2 (replaced " YEAR" (" " ++ year)) (lines text) (lines h) /\
  (whole text -> whole h) /\ (~ In "---" (lines text) -> ~ In "---" (lines h)) /\
  (Forall (fun l => has_prefix "#" l = true) (lines text) -> Forall (fun l => has_prefix "#" l = true) (lines h)).
Proof.
  cbn [header_text]. intros [= <-] Y. change (has_char newline (String " " year) = false) in Y.
  destruct (replace_lines " YEAR" (String " " year) text) as [L W]; try easy.
  change (" " ++ year)%string with (String " " year). rewrite L. split; [|split; [exact W|split]].
  - clear. induction (lines text) as [|l ls IH]; constructor; auto. now apply replace_spec.
  - intros N H. apply in_map_iff in H. destruct H as (l & E & H). apply N. clear -E H.
    assert (R := replace_spec " YEAR" (String " " year) ltac:(discriminate) (String.length l) l ltac:(lia)).
    unfold replace_all in E. rewrite E in R. remember "---" as d eqn:Ed. destruct R as [s _|a b b' _ _]; [exact H|]. exfalso.
    assert (X := f_equal (has_char " ") Ed). rewrite has_char_app in X. cbn in X. now rewrite orb_true_r in X.
  - intros F. rewrite Forall_map. apply Forall_impl with (2 := F). intros l P. apply has_prefix_spec in P. destruct P as [t ->].
    cbn [append]. now rewrite replace_cons.
Qed.

(** ** The file *)

Section File.
Variable Obj : Type.
Variable json : Obj -> option val.
Variable enc : object -> option string.
(** Reading the lines of a document. *)
Variable decode : list string -> option val.
Hypothesis json_go : forall o v, json o = Some v -> go_tree v.
(** A document is of whole lines, none of which is a separator. *)
Hypothesis enc_lines : forall m y, enc m = Some y -> whole y /\ ~ In "---" (lines y).
(** What is read is what was written, but perhaps for the order of keys. *)
Hypothesis enc_decode : forall m y, enc m = Some y ->
  exists v, decode (lines y) = Some v /\ forall p, look p v = look p (Map m).

Lemma marshal_inv ts o y : marshal Obj json enc ts o = Some y ->
  exists v m m', json o = Some v /\ unmarshal v = Some m /\ apply_transforms ts m = Ok m' /\ enc m' = Some y.
Proof.
  unfold marshal, yaml_marshal. destruct (json o) as [v|]; [|discriminate]. destruct (unmarshal v) as [m|] eqn:U; [|discriminate].
  destruct (apply_transforms ts m) as [m'| |] eqn:A; try discriminate. destruct (enc m') eqn:E; [|discriminate]. intros [= <-].
  now exists v, m, m'.
Qed.

Lemma file_documents ts wr path header objs w w' :
  write_yaml Obj (marshal Obj json enc ts) wr (Some (File path)) header objs w = (w', true) ->
  whole header -> ~ In "---" (lines header) ->
  exists text ys, mget String.eqb (w_files w') path = Some text /\ documents text = lines header :: map lines ys /\
    Forall2 (fun o y => marshal Obj json enc ts o = Some y) objs ys.
Proof.
  intros H W N. destruct (write_yaml_content _ _ _ _ _ _ _ _ H) as (s & ys & E & F & C). injection E as <-.
  destruct C as [C _]. eexists. exists ys. split; [exact C|]. split; auto. apply (documents_written header ys); auto.
  clear -F enc_lines. induction F as [|o y objs ys A F IH]; constructor; auto.
  apply marshal_inv in A. destruct A as (_ & _ & m' & _ & _ & _ & A). now apply enc_lines in A.
Qed.

Lemma null_panics : apply_transforms other_transforms [] = Panic /\ forall preserve, apply_transforms (crd_transforms preserve) [] = Panic.
Proof. split; reflexivity. Qed.

(** A file of CRDs: after the header there is one document for each, in order, with what it has. *)
Theorem crd_file preserve wr path header objs w w' :
  write_yaml Obj (marshal Obj json enc (crd_transforms preserve)) wr (Some (File path)) header objs w = (w', true) ->
  whole header -> ~ In "---" (lines header) ->
  exists text docs, mget String.eqb (w_files w') path = Some text /\ documents text = lines header :: docs /\
    Forall2 (fun o d => exists v v', json o = Some v /\ decode d = Some v' /\ crd_written preserve v v') objs docs.
Proof.
  intros H W N. destruct (file_documents _ _ _ _ _ _ _ H W N) as (text & ys & A & B & C). exists text, (map lines ys).
  split; auto. split; auto. clear -C json_go enc_decode. induction C as [|o y objs ys A C IH]; constructor; auto.
  apply marshal_inv in A. destruct A as (v & m & m' & J & U & T & E). destruct (enc_decode m' y E) as (v' & D & L).
  assert (V : v = Map m).
  { destruct v as [[]| |]; try discriminate U; injection U as <-; auto. rewrite (proj2 null_panics) in T. discriminate. }
  subst v. exists (Map m), v'. split; auto. split; auto.
  assert (X := crd_transforms_exact preserve m (json_go _ _ J)). rewrite T in X. destruct X as (_ & X1 & X2 & X3).
  split; [|split].
  - intros p Hp. rewrite L. now apply X1.
  - intros p P1 P2 P3. rewrite L. now apply X2.
  - destruct preserve; [intros S; rewrite L; auto|intros p Hp; rewrite L; auto].
Qed.

(** A file of roles or webhook configurations. *)
Theorem other_file wr path header objs w w' :
  write_yaml Obj (marshal Obj json enc other_transforms) wr (Some (File path)) header objs w = (w', true) ->
  whole header -> ~ In "---" (lines header) ->
  exists text docs, mget String.eqb (w_files w') path = Some text /\ documents text = lines header :: docs /\
    Forall2 (fun o d => exists v v', json o = Some v /\ decode d = Some v' /\ other_written v v') objs docs.
Proof.
  intros H W N. destruct (file_documents _ _ _ _ _ _ _ H W N) as (text & ys & A & B & C). exists text, (map lines ys).
  split; auto. split; auto. clear -C json_go enc_decode. induction C as [|o y objs ys A C IH]; constructor; auto.
  apply marshal_inv in A. destruct A as (v & m & m' & J & U & T & E). destruct (enc_decode m' y E) as (v' & D & L).
  assert (V : v = Map m).
  { destruct v as [[]| |]; try discriminate U; injection U as <-; auto. rewrite (proj1 null_panics) in T. discriminate. }
  subst v. exists (Map m), v'. split; auto. split; auto.
  assert (X := other_transforms_exact m (json_go _ _ J)). rewrite T in X. destruct X as (_ & X1 & X2).
  split; intros p Hp; rewrite L; auto.
Qed.

(** It fails only for objects that cannot be encoded, or are not objects with metadata. *)
Theorem file_written ts wr path header objs w :
  (exists preserve, ts = crd_transforms preserve) \/ ts = other_transforms ->
  (forall k, wr k = true) -> (forall m, enc m <> None) ->
  ((exists w', write_yaml Obj (marshal Obj json enc ts) wr (Some (File path)) header objs w = (w', true)) <->
   forall o, In o objs -> exists v, json o = Some v /\ look [Key "metadata"] v = Some LMap).
Proof.
  intros T Wr En. rewrite write_yaml_succeeds by auto.
  assert (K : forall o, marshal Obj json enc ts o <> None <-> exists v, json o = Some v /\ look [Key "metadata"] v = Some LMap).
  { intros o. unfold marshal, yaml_marshal. destruct (json o) as [v|] eqn:J; [|split; [easy|now intros (v & [=] & _)]].
    assert (X : forall m, go_tree (Map m) -> match apply_transforms ts m with Ok _ => look [Key "metadata"] (Map m) = Some LMap | Err => False | Panic => look [Key "metadata"] (Map m) <> Some LMap end).
    { intros m G. destruct T as [[preserve ->]| ->].
      - assert (Y := crd_transforms_exact preserve m G). destruct (apply_transforms (crd_transforms preserve) m); tauto.
      - assert (Y := other_transforms_exact m G). destruct (apply_transforms other_transforms m); tauto. }
    assert (G := json_go _ _ J). destruct v as [x|l|m].
    - split.
      + destruct x; cbn [unmarshal]; try easy. destruct T as [[preserve ->]| ->]; [rewrite (proj2 null_panics)|rewrite (proj1 null_panics)]; easy.
      + intros (v & [= <-] & L). discriminate.
    - split; [easy|]. intros (v & [= <-] & L). discriminate.
    - cbn [unmarshal]. specialize (X m G). destruct (apply_transforms ts m) as [m'| |].
      + split; [eauto|]. intros _. assert (E := En m'). destruct (enc m'); easy.
      + easy.
      + split; [easy|]. intros (v & [= <-] & L). contradiction. }
  split; intros H o Ho; apply K; auto.
Qed.
End File.

(** ** Examples *)

Definition xcrd : object :=
  [("kind", Scalar (Str "CustomResourceDefinition")); ("metadata", Map [("creationTimestamp", Scalar Null); ("name", Scalar (Str "a.b"))]);
   ("spec", Map [("versions", Seq [Map [("name", Scalar (Str "v1")); ("status", Scalar (Bool true))]])]);
   ("status", Map [("conditions", Scalar Null)])].

Example crd_transformed : apply_transforms (crd_transforms (Some false)) xcrd =
  Ok [("kind", Scalar (Str "CustomResourceDefinition")); ("metadata", Map [("name", Scalar (Str "a.b"))]);
      ("spec", Map [("versions", Seq [Map [("name", Scalar (Str "v1")); ("status", Scalar (Bool true))]]); ("preserveUnknownFields", Scalar (Bool false))])].
Proof. reflexivity. Qed.

Ltac keys := cbn [map fst]; repeat constructor; cbn [In]; intuition discriminate.

Example crd_go : go_tree (Map xcrd).
Proof.
  apply go_map; [keys|]. intros k v H. cbn in H.
  repeat match type of H with (if ?c then _ else _) = _ => destruct c; [injection H as <-|] end; try discriminate; try apply go_scalar.
  - apply go_map; [keys|]. intros k' v' H. cbn in H.
    repeat match type of H with (if ?c then _ else _) = _ => destruct c; [injection H as <-|] end; try discriminate; apply go_scalar.
  - apply go_map; [keys|]. intros k' v' H. cbn in H.
    destruct (String.eqb k' "versions"); [injection H as <-|discriminate]. intros [|[s|[|i]] p] m; cbn; try discriminate.
    + revert p m. apply go_map; [keys|]. intros k2 v2 H. cbn in H.
      repeat match type of H with (if ?c then _ else _) = _ => destruct c; [injection H as <-|] end; try discriminate; apply go_scalar.
    + now destruct i.
  - apply go_map; [keys|]. intros k' v' H. cbn in H.
    destruct (String.eqb k' "conditions"); [injection H as <-; apply go_scalar|discriminate].
Qed.

(** An encoder for maps with a kind and a name. *)
Definition no_newline (s : string) : bool := negb (has_char newline s).
Definition xenc (m : object) : option string :=
  match m with
  | [("kind", Scalar (Str k)); ("metadata", Map [("name", Scalar (Str n))])] =>
      if no_newline k && no_newline n
      then Some ("kind: " ++ k ++ String newline ("metadata:" ++ String newline ("  name: " ++ n ++ String newline "")))%string
      else None
  | _ => None
  end.
Definition xdecode (d : list string) : option val :=
  match d with
  | [a; _; c] => Some (Map [("metadata", Map [("name", Scalar (Str (str_drop 8 c)))]); ("kind", Scalar (Str (str_drop 6 a)))])
  | _ => None
  end.
Definition xjson (n : string) : option val :=
  Some (Map [("kind", Scalar (Str "Role")); ("metadata", Map [("creationTimestamp", Scalar Null); ("name", Scalar (Str n))])]).

Lemma xenc_inv m y : xenc m = Some y -> exists k n, m = [("kind", Scalar (Str k)); ("metadata", Map [("name", Scalar (Str n))])] /\
  has_char newline k = false /\ has_char newline n = false /\
  y = ("kind: " ++ k ++ String newline ("metadata:" ++ String newline ("  name: " ++ n ++ String newline "")))%string.
Proof.
  unfold xenc. intros H.
  repeat match type of H with
  | (if _ && _ then _ else _) = _ => fail 1
  | context [match ?x with _ => _ end] => is_var x; destruct x; try discriminate H
  end.
  match type of H with (if no_newline ?k && no_newline ?n then _ else _) = _ => exists k, n end.
  destruct (no_newline _) eqn:K in H; [|discriminate]. cbn [andb] in H. destruct (no_newline _) eqn:L in H; [|discriminate].
  apply negb_true_iff in K, L. injection H as <-. auto.
Qed.

Lemma xenc_lines m y : xenc m = Some y -> exists k n, m = [("kind", Scalar (Str k)); ("metadata", Map [("name", Scalar (Str n))])] /\
  whole y /\ lines y = [("kind: " ++ k)%string; "metadata:"; ("  name: " ++ n)%string].
Proof.
  intros H. destruct (xenc_inv m y H) as (k & n & -> & K & N & ->). exists k, n. split; auto. split.
  - right. exists ("kind: " ++ k ++ String newline ("metadata:" ++ String newline ("  name: " ++ n)))%string.
    repeat (rewrite str_app_assoc; cbn [append]). reflexivity.
  - rewrite <- str_app_assoc. rewrite lines_first by (rewrite has_char_app, K; reflexivity). f_equal.
    rewrite (lines_first "metadata:") by reflexivity. f_equal.
    rewrite <- str_app_assoc. rewrite lines_first by (rewrite has_char_app, N; reflexivity). reflexivity.
Qed.

Example xenc_lines_ok : forall m y, xenc m = Some y -> whole y /\ ~ In "---" (lines y).
Proof.
  intros m y H. destruct (xenc_lines m y H) as (k & n & _ & W & ->). split; auto. intros [E|[E|[E|[]]]]; discriminate.
Qed.

Example xenc_decode_ok : forall m y, xenc m = Some y -> exists v, xdecode (lines y) = Some v /\ forall p, look p v = look p (Map m).
Proof.
  intros m y H. destruct (xenc_lines m y H) as (k & n & -> & _ & ->). eexists. split; [reflexivity|].
  intros [|[j|i] p]; auto. rewrite !look_key. cbn [mget str_drop append].
  destruct (String.eqb_spec j "metadata") as [->|]; [reflexivity|]. now destruct (String.eqb j "kind").
Qed.

Example xjson_go : forall n v, xjson n = Some v -> go_tree v.
Proof.
  intros n v [= <-]. apply go_map.
  - keys.
  - intros k v. cbn. destruct (String.eqb k "kind"); [intros [= <-]; apply go_scalar|].
    destruct (String.eqb k "metadata"); [intros [= <-]|discriminate]. apply go_map.
    + keys.
    + intros k' v'. cbn. destruct (String.eqb k' "creationTimestamp"); [intros [= <-]; apply go_scalar|].
      destruct (String.eqb k' "name"); [intros [= <-]; apply go_scalar|discriminate].
Qed.

Notation nl := (String newline "").

(** Two roles are written to a file with a header. *)
Example roles_written : exists w' text,
  write_yaml string (marshal string xjson xenc other_transforms) (fun _ => true) (Some (File "role.yaml")) ("# Copyright 2024" ++ nl)%string ["a"; "b"] (mkWorld [] "") = (w', true) /\
  mget String.eqb (w_files w') "role.yaml" = Some text /\
  documents text = [["# Copyright 2024"]; ["kind: Role"; "metadata:"; "  name: a"]; ["kind: Role"; "metadata:"; "  name: b"]].
Proof. do 2 eexists. split; [vm_compute; reflexivity|]. split; vm_compute; reflexivity. Qed.

Example header_example : header_text (Some (Some ("# Copyright YEAR, YEAR." ++ nl)%string)) "2024" = Some ("# Copyright 2024, 2024." ++ nl)%string.
Proof. reflexivity. Qed.

(** ** What does not hold *)

(** "There is no YEAR left": it is replaced after a space only, and may be in the year itself. *)
Theorem year_everywhere_refuted : ~ (forall text year h, header_text (Some (Some text)) year = Some h ->
  str_contains year "YEAR" = false -> str_contains h "YEAR" = false).
Proof. intros H. now specialize (H "# (c)YEAR" "2024" _ eq_refl eq_refl). Qed.

(** "Any header without separators will do": one without an end of line hides the first separator. *)
Theorem header_end_refuted : ~ (forall header ys, ~ In "---" (lines header) -> Forall (fun y => whole y /\ ~ In "---" (lines y)) ys ->
  documents (header ++ join "" (map (fun y => "---" ++ String newline y)%string ys)) = lines header :: map lines ys).
Proof.
  intros H. specialize (H "# Copyright" [("a: b" ++ nl)%string]). vm_compute in H. assert (X : [["# Copyright---"; "a: b"]] = [["# Copyright"]; ["a: b"]]); [|discriminate].
  apply H.
  - intros [E|[]]. discriminate.
  - constructor; auto. split. right. now exists "a: b". intros [E|[]]. discriminate.
Qed.

(** "preserveUnknownFields is set when asked for": not without a spec. *)
Theorem preserve_set_refuted : ~ (forall obj obj' value, apply_transforms (crd_transforms (Some value)) obj = Ok obj' ->
  look preserved (Map obj') = Some (LScalar (Bool value))).
Proof. intros H. now specialize (H [("metadata", Map [])] _ true eq_refl). Qed.

Print Assumptions crd_transforms_exact.
Print Assumptions other_transforms_exact.
Print Assumptions header_exact.
Print Assumptions header_lines.
Print Assumptions crd_file.
Print Assumptions other_file.
Print Assumptions file_written.
Print Assumptions year_everywhere_refuted.
Print Assumptions header_end_refuted.
Print Assumptions preserve_set_refuted.
