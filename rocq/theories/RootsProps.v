(** * C48: the roots are loaded where they are, once, with the modules below them *)

From Coq Require Import String Ascii List Bool Arith Lia.
Import ListNotations.
From Verif Require Import GoLib RootsModel RootsSpec RootsProofs.
Open Scope string_scope.
Open Scope nat_scope.
Open Scope list_scope.

Lemma is_fs_iff r : is_fs r = true <-> file_root r.
Proof.
  unfold is_fs, file_root. destruct r as [|c r]; cbn [is_abs]; [split; [discriminate|intros (s & [H|H]); discriminate]|].
  rewrite orb_true_iff. split.
  - intros [E|E]; apply Ascii.eqb_eq in E; subst c; exists r; [now left|now right].
  - intros (s & [[= -> _]|[= -> _]]); [left|right]; reflexivity.
Qed.

Lemma splits_filter roots : splits roots (filter is_fs roots) (filter (fun r => negb (is_fs r)) roots).
Proof.
  induction roots as [|r roots IH]; cbn [filter]; [constructor|]. destruct (is_fs r) eqn:E; cbn [negb].
  - apply splits_file; [now apply is_fs_iff|exact IH].
  - apply splits_package; [|exact IH]. intros F. apply is_fs_iff in F. congruence.
Qed.

Section Claims.
Variable load : nat -> call -> option (list pkg).
Variable getwd : option string.
Variable walk : string -> option (list (string * bool)).
(** The working directory; it has no part called "..." or "go.mod". *)
Variable wd : place.
Hypothesis getwd_is : forall d, getwd = Some d -> is_abs d = true /\ leads [] d = wd.
Hypothesis wd_dots : ~ In "..." wd.
Hypothesis wd_mod : ~ In "go.mod" wd.
(** WalkDir makes paths by Join. *)
Hypothesis walk_clean : forall d es p b, walk d = Some es -> In (p, b) es -> clean p = p.

Notation run := (load_roots load getwd walk).

(** All that is known of a run. *)
Lemma run_inv cfg_dir roots : roots <> [] ->
  exists fs pk mine more, splits roots fs pk /\ mine = match pk with [] => [] | _ => [(cfg_dir, pk)] end /\
  r_calls (run cfg_dir roots) = mine ++ more /\
  match r_roots (run cfg_dir roots) with
  | Some ps =>
      (exists ls, List.length ls = List.length (mine ++ more) /\
        (forall i c, nth_error (mine ++ more) i = Some c -> load i c = nth_error ls i) /\ ps = firsts (concat ls)) /\
      exists found, Forall2 (walked walk wd) (map (fun r => about (leads (leads wd cfg_dir) r)) fs) found /\
        map (called wd) more = map (fun r => Some (about (leads (leads wd cfg_dir) r))) fs ++ map Some (flat_map (modules wd) found)
  | None =>
      failed load (mine ++ more) \/
      ((forall i c, nth_error (mine ++ more) i = Some c -> load i c <> None) /\
       ((cfg_dir = "" /\ getwd = None /\ exists r, In r fs /\ is_abs r = false) \/
        exists r d, In r fs /\ about (leads (leads wd cfg_dir) r) = (leads wd d, "./...") /\ walk d = None))
  end.
Proof using getwd_is wd_dots wd_mod walk_clean.
  intros Hne. exists (filter is_fs roots), (filter (fun r => negb (is_fs r)) roots), (match filter (fun r => negb (is_fs r)) roots with [] => [] | _ => [(cfg_dir, filter (fun r => negb (is_fs r)) roots)] end).
  unfold load_roots. assert (S := splits_filter roots). set (fs := filter is_fs roots) in *. set (pk := filter (fun r => negb (is_fs r)) roots) in *.
  assert (D : forall A (a b : A), match roots with [] => a | _ => b end = b) by (intros; now destruct roots). rewrite D. clear D.
  set (s0 := mkL cfg_dir [] [] []).
  assert (L0 : loaded load s0 []) by (split; [easy|split; [intros i c H; now destruct i|now split]]).
  set (mine := match pk with [] => [] | _ => [(cfg_dir, pk)] end).
  assert (P : let '(s1, ok) := match pk with [] => (s0, true) | _ => load_packages load pk s0 end in
              l_dir s1 = cfg_dir /\ l_calls s1 = mine /\ if ok then exists ls, loaded load s1 ls else failed load mine).
  { unfold mine. destruct pk as [|x pk']; [split; [easy|]; split; [easy|]; now exists []|].
    assert (R := load_packages_run load (x :: pk') s0 [] L0). destruct (load_packages load (x :: pk') s0) as [s1 ok]. destruct R as (R1 & R2 & R3).
    split; [exact R1|]. split; [exact R2|]. destruct ok; [destruct R3 as (l & R3); now exists ([] ++ [l])|].
    exists [], (cfg_dir, x :: pk'). split; [easy|]. split; [exact R3|]. intros i c H. now destruct i. }
  destruct (match pk with [] => (s0, true) | _ => load_packages load pk s0 end) as [s1 ok]. destruct P as (P1 & P2 & P3).
  destruct ok; cbn [negb].
  2:{ exists []. unfold finish. cbn [r_roots r_calls fst snd]. rewrite app_nil_r. split; [exact S|]. split; [easy|]. split; [exact P2|]. left. exact P3. }
  destruct P3 as (ls & L1). destruct fs as [|f fs'] eqn:Ef.
  - exists []. unfold finish. cbn [r_roots r_calls fst snd]. rewrite app_nil_r. split; [exact S|]. split; [easy|]. split; [exact P2|]. split.
    + exists ls. destruct L1 as (A & B & C & _). rewrite P2 in *. now split.
    + exists []. split; [constructor|reflexivity].
  - rewrite <- Ef in *. clear Ef f fs'. set (fsr := filter is_fs roots) in *. clearbody fsr.
    destruct (first_pass getwd walk cfg_dir fs) as [[as_ added]|] eqn:F.
    + destruct (first_pass_run getwd walk wd getwd_is wd_dots wd_mod walk_clean cfg_dir fs as_ added F) as (F1 & F2 & found & F3 & F4).
      assert (R := second_pass_run load wd wd_dots (as_ ++ added) F1 s1 ls L1). destruct (second_pass load (as_ ++ added) s1) as [s2 ok2].
      destruct R as (more & R1 & R2). exists more. unfold finish. cbn [r_roots r_calls fst snd]. rewrite P2 in R1. split; [exact S|]. split; [easy|]. split; [exact R1|]. destruct ok2.
      * destruct R2 as ((ls' & A & B & C & _) & R2). rewrite R1 in *. split; [now exists ls'|]. exists found. split; [exact F3|]. rewrite R2, map_app. f_equal.
        -- rewrite <- (map_map (fun r => about (leads wd r)) Some), F2, map_map. reflexivity.
        -- now rewrite <- F4, map_map.
      * left. now rewrite R1 in R2.
    + exists []. unfold finish. cbn [r_roots r_calls fst snd]. rewrite app_nil_r. split; [exact S|]. split; [easy|]. split; [exact P2|]. right. split.
      * rewrite <- P2. exact (loaded_ok load s1 ls L1).
      * exact (first_pass_fails getwd walk wd getwd_is wd_dots cfg_dir fs F).
Qed.

(** If there is no error: the roots that are not about files are loaded together, with the configuration's directory; each of the
    others from the directory that it leads to (from that of the configuration, seen from the working directory), or for what is
    below it; and for each of the latter and each go.mod file there, what is below the directory of that.  There is no other call. *)
Theorem loads_exact cfg_dir roots ps : roots <> [] -> r_roots (run cfg_dir roots) = Some ps ->
  exists fs pk more found, splits roots fs pk /\
    r_calls (run cfg_dir roots) = match pk with [] => [] | _ => [(cfg_dir, pk)] end ++ more /\
    Forall2 (fun r es => let '(p, pattern) := about (leads (leads wd cfg_dir) r) in
               (pattern = "./..." -> exists d, leads wd d = p /\ walk d = Some es) /\ (pattern <> "./..." -> es = [])) fs found /\
    map (called wd) more = map (fun r => Some (about (leads (leads wd cfg_dir) r))) fs ++ map Some (flat_map (modules wd) found).
Proof.
  intros Hne H. destruct (run_inv cfg_dir roots Hne) as (fs & pk & mine & more & S & -> & C & R). rewrite H in R. destruct R as (_ & found & W & M).
  exists fs, pk, more, found. split; [exact S|]. split; [exact C|]. split; [|exact M].
  clear - W. revert found W. induction fs as [|r fs IH]; intros found W; cbn [map] in W; inversion W as [|? es ? found' Hr Ht]; subst; constructor; [|now apply IH].
  unfold walked in Hr. destruct (about (leads (leads wd cfg_dir) r)) as [p pattern]. cbn [fst snd] in Hr.
  destruct (String.eqb_spec pattern "./...") as [->|E]; split; congruence || easy.
Qed.

(** The result: the packages that the calls gave, in their order, of those with the same ID the first. *)
Theorem result_exact cfg_dir roots ps : r_roots (run cfg_dir roots) = Some ps ->
  exists ls, List.length ls = List.length (r_calls (run cfg_dir roots)) /\
    (forall i c, nth_error (r_calls (run cfg_dir roots)) i = Some c -> load i c = nth_error ls i) /\ ps = firsts (concat ls).
Proof.
  destruct roots as [|r roots].
  - unfold load_roots. cbn [r_roots finish]. assert (L0 : loaded load (mkL cfg_dir [] [] []) []) by (split; [easy|split; [intros i c H; now destruct i|now split]]).
    assert (R := load_packages_run load [] _ _ L0). destruct (load_packages load [] _) as [s ok]. destruct R as (_ & _ & R). destruct ok; cbn [finish r_roots r_calls fst snd]; [|discriminate].
    intros [= <-]. destruct R as (l & A & B & C & _). now exists ([] ++ [l]).
  - intros H. destruct (run_inv cfg_dir (r :: roots)) as (fs & pk & mine & more & _ & _ & C & R); [discriminate|]. rewrite H in R. rewrite C. apply R.
Qed.

Lemma firsts_ids l : NoDup (map p_id (firsts l)) /\ forall x, In x (map p_id (firsts l)) <-> In x (map p_id l).
Proof.
  induction l as [|p l (N & I)]; [split; [constructor|easy]|]. cbn [firsts map].
  assert (F : forall x, In x (map p_id (filter (fun q => negb (String.eqb (p_id q) (p_id p))) (firsts l))) <-> In x (map p_id l) /\ x <> p_id p).
  { intros x. rewrite <- I, !in_map_iff. split.
    - intros (q & <- & H). apply filter_In in H. destruct H as [H E]. split; [now exists q|]. apply negb_true_iff, String.eqb_neq in E. exact E.
    - intros ((q & <- & H) & E). exists q. split; [easy|]. apply filter_In. split; [exact H|]. now apply negb_true_iff, String.eqb_neq. }
  split.
  - constructor; [intros H; now apply F in H|]. clear F I. induction (firsts l) as [|q m IHm]; [constructor|]. cbn [filter map] in *. apply NoDup_cons_iff in N. destruct N as [Nq N].
    destruct (negb (String.eqb (p_id q) (p_id p))); [|now apply IHm]. cbn [map]. constructor; [|now apply IHm].
    intros H. apply Nq. apply in_map_iff in H. destruct H as (y & E & H). apply filter_In in H. apply in_map_iff. now exists y.
  - intros x. cbn [In]. rewrite F. destruct (string_dec x (p_id p)) as [->|Nx]; [tauto|]. split; [tauto|]. intros [H|H]; [now left|right; now split].
Qed.

(** So no ID is there twice, and just those of the packages that some call gave are there. *)
Theorem ids_once cfg_dir roots ps : r_roots (run cfg_dir roots) = Some ps ->
  NoDup (map p_id ps) /\
  forall id, In id (map p_id ps) <-> exists i c l, nth_error (r_calls (run cfg_dir roots)) i = Some c /\ load i c = Some l /\ In id (map p_id l).
Proof.
  intros H. destruct (result_exact cfg_dir roots ps H) as (ls & A & B & ->). destruct (firsts_ids (concat ls)) as (N & I). split; [exact N|]. intros id. rewrite I. split.
  - intros X. apply in_map_iff in X. destruct X as (p & <- & X). apply in_concat in X. destruct X as (l & Hl & X). apply In_nth_error in Hl. destruct Hl as (i & Hi).
    assert (Li : i < List.length (r_calls (run cfg_dir roots))) by (rewrite <- A; apply nth_error_Some; congruence).
    destruct (nth_error (r_calls (run cfg_dir roots)) i) as [c|] eqn:E; [|apply nth_error_None in E; lia]. exists i, c, l. split; [easy|]. rewrite (B i c E). split; [exact Hi|].
    apply in_map_iff. now exists p.
  - intros (i & c & l & E & L & X). rewrite (B i c E) in L. apply nth_error_In in L. apply in_map_iff in X. destruct X as (p & <- & X).
    apply in_map_iff. exists p. split; [easy|]. apply in_concat. now exists l.
Qed.

(** There are no packages at all if and only if a call fails, which is then the last one; or no call fails, but the working directory
    is not known and a root is relative to it, or what is below one cannot be walked. *)
Theorem errors_exact cfg_dir roots :
  (r_roots (run cfg_dir roots) = None ->
     (exists calls c, r_calls (run cfg_dir roots) = calls ++ [c] /\ load (List.length calls) c = None /\
        forall i c', nth_error calls i = Some c' -> load i c' <> None) \/
     (forall i c, nth_error (r_calls (run cfg_dir roots)) i = Some c -> load i c <> None) /\
     exists r, In r roots /\ file_root r /\
       ((cfg_dir = "" /\ getwd = None /\ is_abs r = false) \/
        exists d, about (leads (leads wd cfg_dir) r) = (leads wd d, "./...") /\ walk d = None)) /\
  (forall i c, nth_error (r_calls (run cfg_dir roots)) i = Some c -> load i c = None -> r_roots (run cfg_dir roots) = None).
Proof.
  split.
  - destruct roots as [|r0 roots0].
    + unfold load_roots, load_packages. cbn [l_calls l_dir List.length]. destruct (load 0 (cfg_dir, [])) as [l|] eqn:E.
      * destruct (add_new l _). cbn [finish r_roots snd]. discriminate.
      * intros _. left. exists [], (cfg_dir, []). split; [easy|]. split; [exact E|]. intros i c H. now destruct i.
    + intros H. destruct (run_inv cfg_dir (r0 :: roots0)) as (fs & pk & mine & more & S & _ & C & R); [discriminate|]. rewrite H in R. rewrite C. 
      assert (Sf : forall r, In r fs -> In r (r0 :: roots0) /\ file_root r).
      { clear - S. induction S as [|r rs fs ps F S IH|r rs fs ps F S IH]; intros x Hx; [destruct Hx| |].
        - destruct Hx as [<-|Hx]; [split; [now left|exact F]|]. destruct (IH x Hx). split; [now right|assumption].
        - destruct (IH x Hx). split; [now right|assumption]. }
      destruct R as [(calls & c & R)|(R1 & [(A & B & r & Hr & D)|(r & d & Hr & D)])].
      * left. now exists calls, c.
      * right. split; [exact R1|]. exists r. destruct (Sf r Hr). split; [assumption|]. split; [assumption|]. left. easy.
      * right. split; [exact R1|]. exists r. destruct (Sf r Hr). split; [assumption|]. split; [assumption|]. right. now exists d.
  - intros i c Hi E. destruct (r_roots (run cfg_dir roots)) as [ps|] eqn:H; [|reflexivity]. exfalso.
    destruct (result_exact cfg_dir roots ps H) as (ls & A & B & _). assert (X := B i c Hi). rewrite E in X. symmetry in X. apply nth_error_None in X.
    assert (i < List.length (r_calls (run cfg_dir roots))) by (apply nth_error_Some; congruence). lia.
Qed.

(** Without roots there is one call, without patterns. *)
Theorem no_roots cfg_dir : r_calls (run cfg_dir []) = [(cfg_dir, [])].
Proof. unfold load_roots, load_packages. cbn [l_calls l_dir l_ids List.length]. destruct (load 0 (cfg_dir, [])) as [l|]; [|reflexivity]. now destruct (add_new l []). Qed.
End Claims.

(** The configuration's directory is in the end what it was, with or without an error. *)
Theorem dir_restored load getwd walk cfg_dir roots : r_dir (load_roots load getwd walk cfg_dir roots) = cfg_dir.
Proof.
  assert (P : forall rs s, l_dir (fst (load_packages load rs s)) = l_dir s).
  { intros rs s. unfold load_packages. destruct (load _ _) as [l|]; [|reflexivity]. now destruct (add_new l (l_ids s)). }
  unfold load_roots. destruct roots as [|r roots]; [apply P|]. set (pk := filter (fun r => negb (is_fs r)) (r :: roots)).
  assert (Q : l_dir (fst (match pk with [] => (mkL cfg_dir [] [] [], true) | _ => load_packages load pk (mkL cfg_dir [] [] []) end)) = cfg_dir) by (destruct pk; [reflexivity|apply P]).
  destruct (match pk with [] => _ | _ => _ end) as [s1 ok]. destruct ok; cbn [negb]; [|exact Q].
  destruct (filter is_fs (r :: roots)) as [|f fs]; [exact Q|]. now destruct (first_pass getwd walk cfg_dir (f :: fs)) as [[? ?]|].
Qed.

Print Assumptions loads_exact.
Print Assumptions result_exact.
Print Assumptions ids_once.
Print Assumptions errors_exact.
Print Assumptions no_roots.
Print Assumptions dir_restored.

(** ** Cases *)

(** /home/me/proj is a module; below it api and tools/gen are modules of their own, and so is something in testdata. *)
Definition xwalk (d : string) : option (list (string * bool)) :=
  if String.eqb d "/home/me/proj" then
    Some [("/home/me/proj", true); ("/home/me/proj/api", true); ("/home/me/proj/api/go.mod", false); ("/home/me/proj/api/x.go", false);
          ("/home/me/proj/go.mod", false); ("/home/me/proj/pkg", true); ("/home/me/proj/pkg/testdata", true);
          ("/home/me/proj/pkg/testdata/go.mod", false)]
  else if String.eqb d "/home/me/proj/pkg" then
    Some [("/home/me/proj/pkg", true); ("/home/me/proj/pkg/testdata", true); ("/home/me/proj/pkg/testdata/go.mod", false)]
  else None.
Definition xload (i : nat) (c : call) : option (list pkg) :=
  match snd c with
  | [r] => if String.eqb r "./..." then Some [mkPkg i (fst c); mkPkg i (fst c ++ "/sub")%string]
           else Some [mkPkg i (if String.eqb r "./." then fst c else r)]
  | l => Some (map (mkPkg i) l)
  end.
Definition xwd : place := ["proj"; "me"; "home"].
Definition xrun := load_roots xload (Some "/home/me/proj") xwalk.

Example ex_wd : (forall d, Some "/home/me/proj" = Some d -> is_abs d = true /\ leads [] d = xwd) /\ ~ In "..." xwd /\ ~ In "go.mod" xwd.
Proof. split; [|split]; [intros d [= <-]; now vm_compute|intros [H|[H|[H|[]]]]; discriminate H..]. Qed.
Example ex_walk : forall d es p b, xwalk d = Some es -> In (p, b) es -> clean p = p.
Proof.
  intros d es p b. unfold xwalk. destruct (String.eqb d "/home/me/proj"); [|destruct (String.eqb d "/home/me/proj/pkg"); [|discriminate]]; intros [= <-] H;
  cbn [In] in H; repeat (destruct H as [[= <- <-]|H]; [now vm_compute|]); destruct H.
Qed.

Example ex_calls : r_calls (xrun "" ["./..."; "k8s.io/api/core/v1"; "./pkg/../api"]) =
  [ ("", ["k8s.io/api/core/v1"]); ("/home/me/proj", ["./..."]); ("/home/me/proj/api", ["./."]);
    ("/home/me/proj/api", ["./..."]); ("/home/me/proj", ["./..."]); ("/home/me/proj/pkg/testdata", ["./..."]) ].
Proof. now vm_compute. Qed.
Example ex_result : option_map (map p_id) (r_roots (xrun "" ["./..."; "k8s.io/api/core/v1"; "./pkg/../api"])) =
  Some ["k8s.io/api/core/v1"; "/home/me/proj"; "/home/me/proj/sub"; "/home/me/proj/api"; "/home/me/proj/api/sub"; "/home/me/proj/pkg/testdata"; "/home/me/proj/pkg/testdata/sub"].
Proof. now vm_compute. Qed.
Example ex_config : r_calls (xrun "../proj/pkg" ["./..."; "/home/me/proj/pkg/..."]) = [] /\ r_calls (xrun "/home/me/proj/tools" ["../pkg/..."; ".."]) =
  [ ("/home/me/proj/pkg", ["./..."]); ("/home/me/proj", ["./."]); ("/home/me/proj/pkg/testdata", ["./..."]) ].
Proof. now vm_compute. Qed.
Example ex_error : let r := load_roots (fun i c => if Nat.eqb i 1 then None else xload i c) (Some "/home/me/proj") xwalk "" ["./pkg"; "./api"; "./x"] in
  r_roots r = None /\ List.length (r_calls r) = 2 /\ r_dir r = "".
Proof. now vm_compute. Qed.

(** ** What does not hold *)

(** "Nothing is loaded from testdata, vendor and directories that begin with _ or . unless a root says so", as for go list ./... . *)
Theorem testdata_skipped_refuted : ~ (forall load getwd walk cfg_dir roots c,
  In c (r_calls (load_roots load getwd walk cfg_dir roots)) -> In "testdata" (parts (fst c)) ->
  In "testdata" (parts cfg_dir) \/ exists r, In r roots /\ In "testdata" (parts r)).
Proof.
  intros H. specialize (H xload (Some "/home/me/proj") xwalk "" ["./..."] ("/home/me/proj/pkg/testdata", ["./..."])).
  destruct H as [H|(r & [<-|[]] & H)]; vm_compute; [tauto|tauto| |]; vm_compute in H.
  - destruct H as [H|[]]. discriminate.
  - destruct H as [H|[H|[]]]; discriminate.
Qed.

(** "No call is made twice": a root with a go.mod file of its own is loaded again. *)
Theorem calls_once_refuted : ~ (forall load getwd walk cfg_dir roots, NoDup roots -> NoDup (r_calls (load_roots load getwd walk cfg_dir roots))).
Proof.
  intros H. specialize (H xload (Some "/home/me/proj") xwalk "" ["./..."]). vm_compute in H.
  assert (X := H ltac:(repeat constructor; intros [])). inversion_clear X as [|? ? N _]. apply N. right. now left.
Qed.

(** "A root with ... in it is loaded by a pattern with ... in it", as for go list ./api/.../v1 . *)
Theorem dots_anywhere_refuted : ~ (forall load getwd walk cfg_dir r, In "..." (parts r) -> file_root r ->
  r_roots (load_roots load getwd walk cfg_dir [r]) <> None ->
  exists d, In (d, ["./..."]) (r_calls (load_roots load getwd walk cfg_dir [r]))).
Proof.
  intros H. destruct (H xload (Some "/home/me/proj") xwalk "" "./api/.../v1") as (d & X).
  - vm_compute. tauto.
  - now exists "/api/.../v1"; right.
  - vm_compute. discriminate.
  - vm_compute in X. destruct X as [X|[]]. discriminate.
Qed.

(** "A root that is not relative to a directory is a package": so is one that begins with a dot. *)
Theorem dot_names_refuted : ~ (forall r, file_root r -> is_abs r = true \/ r = "." \/ r = ".." \/ exists s, r = ("./" ++ s)%string \/ r = ("../" ++ s)%string).
Proof. intros H. destruct (H "...") as [X|[X|[X|(s & [X|X])]]]; try discriminate. now exists ".."; right. Qed.

Print Assumptions testdata_skipped_refuted.
Print Assumptions calls_once_refuted.
Print Assumptions dots_anywhere_refuted.
Print Assumptions dot_names_refuted.
