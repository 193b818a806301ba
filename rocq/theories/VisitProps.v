(** * C45: the types of a package are visited each once, with what belongs to them *)

From Coq Require Import List String Bool Arith Lia.
From Verif Require Import GoLib DocModel VisitModel.
Import ListNotations.
Open Scope nat_scope.
Open Scope list_scope.

(** ** What is meant *)

Definition subs (n : anode) : list anode := match n with ANode _ cs => cs end.
Definition is_file (n : anode) : Prop := exists id, head n = HFile id.
Definition is_decl (n : anode) : Prop := exists id paren doc, head n = HDecl id paren doc.
Definition is_spec (n : anode) : Prop := exists id name doc fs, head n = HSpec id name doc fs.

(** What go/parser gives: declarations stand in files only, as their children (a declaration inside a function is the
    child of a DeclStmt); the specs of a declaration are its children. *)
Definition go_file (f : anode) : Prop :=
  is_file f /\ forall n, In n (subs f) -> ~ is_file n /\ ~ is_spec n /\
    (is_decl n -> forall m, In m (subs n) -> ~ is_file m /\ ~ is_decl m).

(** The type specs of the declarations of a file, in order. *)
Definition specs_in (d : anode) : list anode :=
  match head d with
  | HDecl _ _ _ => filter (fun n => match head n with HSpec _ _ _ _ => true | _ => false end) (subs d)
  | _ => []
  end.
Definition declared (f : anode) : list (anode * anode) := flat_map (fun d => map (pair d) (specs_in d)) (subs f).

(** ** The visitor *)

Fixpoint walks (cs : list anode) (s : vstate) : vstate * list call :=
  match cs with
  | [] => (s, [])
  | c :: cs' => let '(s1, a) := v_walk c s in let '(s2, b) := walks cs' s1 in (s2, a ++ b)
  end.

Lemma walk_eq h cs s : v_walk (ANode h cs) s =
  let '(s1, calls, go) := v_visit h s in
  if go then let '(s2, more) := walks cs s1 in (v_leave s2, calls ++ more) else (s1, calls).
Proof.
  cbn [v_walk]. destruct (v_visit h s) as [[s1 calls] go]. destruct go; [|reflexivity].
  assert (E : forall l s, (fix children (cs : list anode) (s : vstate) : vstate * list call :=
             match cs with
             | [] => (s, [])
             | c :: cs' => let '(s1, a) := v_walk c s in let '(s2, b) := children cs' s1 in (s2, a ++ b)
             end) l s = walks l s) by (induction l as [|c l IH]; intros; cbn [walks]; [reflexivity|]; destruct (v_walk c s0); rewrite IH; reflexivity).
  now rewrite E.
Qed.

Lemma walks_specs cs : forall s, (forall m, In m cs -> ~ is_file m /\ ~ is_decl m) ->
  walks cs s = (s, map (fun n => mkCall (v_file s) (v_decl s) (head n))
                       (filter (fun n => match head n with HSpec _ _ _ _ => true | _ => false end) cs)).
Proof.
  induction cs as [|[h l] cs IH]; intros s H; [reflexivity|]. cbn [walks filter head].
  destruct (H _ (or_introl eq_refl)) as (Hf & Hd). rewrite walk_eq.
  destruct h as [id|id paren doc|id name doc fs|id]; cbn [v_visit].
  - exfalso. apply Hf. now exists id.
  - exfalso. apply Hd. now exists id, paren, doc.
  - rewrite IH by (intros m Hm; apply H; now right). reflexivity.
  - rewrite IH by (intros m Hm; apply H; now right). reflexivity.
Qed.

Lemma walks_decls cs : forall s, v_decl s = None ->
  (forall n, In n cs -> ~ is_file n /\ ~ is_spec n /\ (is_decl n -> forall m, In m (subs n) -> ~ is_file m /\ ~ is_decl m)) ->
  walks cs s = (s, map (fun ds => mkCall (v_file s) (Some (head (fst ds))) (head (snd ds)))
                       (flat_map (fun d => map (pair d) (specs_in d)) cs)).
Proof.
  induction cs as [|[h l] cs IH]; intros s Hn H; [reflexivity|]. cbn [walks flat_map].
  destruct (H _ (or_introl eq_refl)) as (Hf & Hs & Hd). rewrite walk_eq, map_app.
  assert (H' : forall n, In n cs -> ~ is_file n /\ ~ is_spec n /\ (is_decl n -> forall m, In m (subs n) -> ~ is_file m /\ ~ is_decl m))
    by (intros n Hin; apply H; now right).
  destruct h as [id|id paren doc|id name doc fs|id]; cbn [v_visit].
  - exfalso. apply Hf. now exists id.
  - rewrite walks_specs by (apply Hd; now exists id, paren, doc). unfold v_leave. cbn [v_file v_decl].
    destruct s as [sf sd]. cbn [v_decl v_file] in *. subst sd. rewrite IH by easy. f_equal.
    cbn [app v_file]. f_equal. unfold specs_in at 1. cbn [head subs]. now rewrite map_map.
  - exfalso. apply Hs. now exists id, name, doc, fs.
  - rewrite IH by easy. reflexivity.
Qed.

Lemma file_calls f s : go_file f -> v_decl s = None ->
  v_walk f s = (mkV (Some (head f)) None, map (fun ds => mkCall (Some (head f)) (Some (head (fst ds))) (head (snd ds))) (declared f)).
Proof.
  intros ((id & Hf) & H) Hn. destruct f as [h cs]. cbn [head subs] in *. subst h.
  rewrite walk_eq. cbn [v_visit]. rewrite walks_decls; [|exact Hn|exact H]. reflexivity.
Qed.

(** ** The claims *)

(** The callback is called for each type spec of each declaration of each file, in order, with that declaration and that
    file; for nothing else. *)
Theorem types_visited files : Forall go_file files ->
  raw_each_type files =
  flat_map (fun f => map (fun ds => mkCall (Some (head f)) (Some (head (fst ds))) (head (snd ds))) (declared f)) files.
Proof.
  unfold raw_each_type. intros F. enough (Q : forall s, v_decl s = None -> v_files files s =
    flat_map (fun f => map (fun ds => mkCall (Some (head f)) (Some (head (fst ds))) (head (snd ds))) (declared f)) files) by now apply Q.
  induction F as [|f files Hf F IH]; intros s Hn; [reflexivity|]. cbn [v_files flat_map].
  rewrite file_calls by easy. now rewrite IH.
Qed.
Print Assumptions types_visited.

(** In words: a call is made exactly for the type specs that are in a declaration that is in a file. *)
Theorem visited_iff files c : Forall go_file files ->
  (In c (raw_each_type files) <->
   exists f d s, In f files /\ In d (subs f) /\ In s (subs d) /\ is_decl d /\ is_spec s /\
                 c = mkCall (Some (head f)) (Some (head d)) (head s)).
Proof.
  intros F. rewrite types_visited by easy. rewrite in_flat_map. split.
  - intros (f & Hf & H). apply in_map_iff in H. destruct H as ([d s] & <- & H). cbn [fst snd].
    apply in_flat_map in H. destruct H as (d' & Hd & H). apply in_map_iff in H. destruct H as (s' & [= -> ->] & H).
    unfold specs_in in H. destruct (head d) as [|id paren doc| |] eqn:Ed; try destruct H.
    apply filter_In in H. destruct H as (Hs & H). exists f, d, s. rewrite Ed.
    repeat (split; [easy|]). split; [now exists id, paren, doc|]. split; [|easy]. unfold is_spec. destruct (head s); try discriminate. now repeat eexists.
  - intros (f & d & s & Hf & Hd & Hs & (id & paren & doc & Ed) & (i & n & o & l & Es) & ->). exists f. split; [easy|].
    apply in_map_iff. exists (d, s). split; [easy|]. apply in_flat_map. exists d. split; [easy|]. apply in_map. unfold specs_in. rewrite Ed.
    apply filter_In. now rewrite Es.
Qed.
Print Assumptions visited_iff.

Section Info.
Variable MV : Type.
Variable marks : nat -> MV.
Variable unquote : string -> option string.

(** What the callback gets for the type spec [s] of the declaration [d] of the file [f]: the markers of the spec; its own
    comment as documentation or, without one, that of the declaration if that has no parentheses. *)
Definition describes (f d s : ahead) (i : tinfo MV) : Prop :=
  match s, d with
  | HSpec id name doc fields, HDecl _ paren ddoc =>
      ti_name _ i = name /\ ti_marks _ i = marks id /\
      ti_file _ i = Some f /\ ti_decl _ i = Some d /\ ti_spec _ i = s /\
      (exists docs, ti_doc _ i = extract_doc docs /\
         (doc <> None -> docs = doc) /\ (doc = None -> paren = false -> docs = ddoc) /\ (doc = None -> paren = true -> docs = None)) /\
      (fields = None -> ti_fields _ i = [])
  | _, _ => False
  end.

(** There is no panic, and each call is described so. *)
Theorem infos_given files : Forall go_file files ->
  exists infos, each_type MV marks unquote files = Some infos /\
    Forall2 (fun (x : ahead * (anode * anode)) i => describes (fst x) (head (fst (snd x))) (head (snd (snd x))) i)
      (flat_map (fun f => map (pair (head f)) (declared f)) files) infos.
Proof.
  intros F. unfold each_type. rewrite types_visited by easy.
  assert (D : forall x, In x (flat_map (fun f => map (pair (head f)) (declared f)) files) ->
    (exists id paren doc, head (fst (snd x)) = HDecl id paren doc) /\ (exists id name doc fs, head (snd (snd x)) = HSpec id name doc fs)).
  { intros [f [d s]] H. cbn [fst snd]. apply in_flat_map in H. destruct H as (f' & Hf & H). apply in_map_iff in H.
    destruct H as ([d' s'] & [= <- -> ->] & H). apply in_flat_map in H. destruct H as (d' & Hd & H). apply in_map_iff in H.
    destruct H as (s' & [= -> ->] & H). unfold specs_in in H. destruct (head d) as [|id paren doc| |] eqn:Ed; try destruct H.
    apply filter_In in H. destruct H as (Hs & H). split; [now repeat eexists|]. destruct (head s); try discriminate. now repeat eexists. }
  replace (flat_map (fun f => map (fun ds => mkCall (Some (head f)) (Some (head (fst ds))) (head (snd ds))) (declared f)) files)
    with (map (fun x : ahead * (anode * anode) => mkCall (Some (fst x)) (Some (head (fst (snd x)))) (head (snd (snd x))))
              (flat_map (fun f => map (pair (head f)) (declared f)) files)).
  2:{ rewrite !flat_map_concat_map, concat_map, map_map. f_equal. apply map_ext. intros f. now rewrite map_map. }
  induction (flat_map (fun f => map (pair (head f)) (declared f)) files) as [|[f [d s]] l IH].
  - exists []. split; [reflexivity|constructor].
  - destruct IH as (infos & E & IH); [intros x Hx; apply D; now right|].
    destruct (D _ (or_introl eq_refl)) as ((id & paren & ddoc & Ed) & (i & n & o & fs & Es)). cbn [fst snd] in Ed, Es.
    cbn [map fold_right fst snd] in *. rewrite E.
    unfold type_info. cbn [c_spec c_decl c_file]. rewrite Es, Ed. unfold type_doc.
    destruct o as [o|].
    + eexists. split; [reflexivity|]. constructor; [|exact IH]. cbn [fst snd]. rewrite Es, Ed. cbn [describes ti_name ti_marks ti_file ti_decl ti_spec ti_doc ti_fields].
      repeat (split; [reflexivity|]). split; [|now intros ->]. exists (Some o). split; [reflexivity|]. now repeat split.
    + eexists. split; [reflexivity|]. constructor; [|exact IH]. cbn [fst snd]. rewrite Es, Ed. cbn [describes ti_name ti_marks ti_file ti_decl ti_spec ti_doc ti_fields].
      repeat (split; [reflexivity|]). split; [|now intros ->]. exists (docs_of (DTypeSpec None paren ddoc)). split; [reflexivity|].
      destruct paren; now repeat split.
Qed.

(** The names of a field: one without a name stands for itself. *)
Definition names_of (f : afield) : list string := match af_names f with [] => [""%string] | l => l end.

(** Each name of each field of a struct is listed, in order, with the markers, the comment and the tag of its field. *)
Theorem fields_given f i name d d' fs info :
  type_info MV marks unquote (mkCall f d (HSpec i name d' (Some fs))) = Some info ->
  map (fun x => (fi_raw _ x, fi_name _ x)) (ti_fields _ info) = flat_map (fun g => map (pair (af_id g)) (names_of g)) fs /\
  (forall x, In x (ti_fields _ info) -> exists g, In g fs /\ fi_raw _ x = af_id g /\ fi_marks _ x = marks (af_id g) /\
     fi_doc _ x = extract_doc (af_doc g) /\
     (forall t s, af_tag g = Some t -> unquote t = Some s -> fi_tag _ x = s) /\ (af_tag g = None -> fi_tag _ x = ""%string)).
Proof.
  unfold type_info. cbn [c_spec c_decl]. destruct (type_doc d' d) as [t|]; [|discriminate]. intros [= <-]. cbn [ti_fields]. split.
  - rewrite !flat_map_concat_map, concat_map, map_map. f_equal. apply map_ext. intros g. unfold field_infos, names_of.
    rewrite map_app, map_map. cbn [fi_raw fi_name]. destruct (af_names g); [reflexivity|]. apply app_nil_r.
  - intros x H. apply in_flat_map in H. destruct H as (g & Hg & H). exists g. split; [easy|].
    assert (E : exists n, x = mkF MV n (extract_doc (docs_of (DField (af_doc g)))) (parse_tag unquote (af_tag g)) (marks (af_id g)) (af_id g)).
    { unfold field_infos in H. apply in_app_or in H. destruct H as [H|H].
      - apply in_map_iff in H. destruct H as (n & <- & _). now exists n.
      - destruct (af_names g); [|destruct H]. destruct H as [<-|[]]. now exists ""%string. }
    destruct E as (n & ->). cbn. repeat (split; [reflexivity|]). split; intros; unfold parse_tag.
    + now rewrite H0, H1.
    + now rewrite H0.
Qed.
End Info.
Print Assumptions infos_given.
Print Assumptions fields_given.

(** ** An example

<<
package x

// A is documented here.
type A struct {
	B, C int `json:"b"`
	D
}

func f() { type Local int }

// Not for E.
type (
	// E is documented here.
	E string
	F int
)
>> *)
Section Example.
Local Open Scope string_scope.
Definition ex_B := mkAField 21 ["B"; "C"] None (Some "`json:""b""`").
Definition ex_D := mkAField 22 [] None None.
Definition spec id name doc fs := ANode (HSpec id name doc fs) [ANode (HOther (S id)) []].
Definition ex_file : anode :=
  ANode (HFile 1)
    [ ANode (HOther 2) [];
      ANode (HDecl 3 false (Some ["// A is documented here."])) [ANode (HOther 4) []; spec 5 "A" None (Some [ex_B; ex_D])];
      ANode (HOther 7) [ANode (HDecl 8 false None) [spec 9 "Local" None None]];
      ANode (HDecl 11 true (Some ["// Not for E."])) [spec 12 "E" (Some ["// E is documented here."]) None; spec 14 "F" None None] ].

Example ex_go_file : Forall go_file [ex_file].
Proof.
  constructor; [|constructor]. split; [now exists 1|].
  intros n H. cbn in H. destruct H as [<-|[<-|[<-|[<-|[]]]]];
    (split; [intros (? & E); discriminate|]; split; [intros (? & ? & ? & ? & E); discriminate|]).
  - intros (? & ? & ? & E); discriminate.
  - intros _ m [<-|[<-|[]]]; (split; [intros (? & E); discriminate|intros (? & ? & ? & E); discriminate]).
  - intros (? & ? & ? & E); discriminate.
  - intros _ m [<-|[<-|[]]]; (split; [intros (? & E); discriminate|intros (? & ? & ? & E); discriminate]).
Qed.

Example ex_infos :
  option_map (map (fun i => (ti_name _ i, ti_doc _ i, ti_marks _ i, map (fun x => (fi_name _ x, fi_tag _ x, fi_marks _ x)) (ti_fields _ i))))
    (each_type nat (fun n => n) (fun t => if String.eqb t "`json:""b""`" then Some "json:""b""" else None) [ex_file]) =
  Some [ ("A", "A is documented here.", 5, [("B", "json:""b""", 21); ("C", "json:""b""", 21); ("", "", 22)]);
         ("E", "E is documented here.", 12, []); ("F", "", 14, []) ].
Proof. vm_compute. reflexivity. Qed.
End Example.
