(** * Properties C21, C22 and C23: options, runs and output routing. *)
From Coq Require Import List String Ascii Bool Arith Permutation.
From Verif Require Import GoLib GoLibFacts RegistryModel RegistrySpec GenallModel GenallSpec GenallProofs.
Import ListNotations.
Open Scope string_scope.
Open Scope list_scope.

(** ** C21 *)

(** [rule_defs] below: definitions of output rules are named "output:<rule>" or "output:<generator>:<rule>". *)
Theorem options_accepted (G D : Type) (parse : D -> string -> option (optval G)) (reg : registry D)
  (rule_defs : forall raw n r, means G D parse reg raw (n, VOut r) -> default_name n \/ exists g, gen_name n g)
  (o : list (string * rule) -> list (string * rule)) (opts : list string) : is_order o ->
  ((exists p, proto_from_options G D parse o reg opts = Ok p) <-> exists nvs, Forall2 (means G D parse reg) opts nvs /\ acceptable G nvs).
Proof. intros Ho. exact (accepted G D parse reg rule_defs o Ho opts). Qed.
Print Assumptions options_accepted.

Theorem options_no_panic (G D : Type) (parse : D -> string -> option (optval G)) (reg : registry D)
  (rule_defs : forall raw n r, means G D parse reg raw (n, VOut r) -> default_name n \/ exists g, gen_name n g)
  (o : list (string * rule) -> list (string * rule)) (opts : list string) : (forall raw, In raw opts -> raw <> "") -> proto_from_options G D parse o reg opts <> Panic.
Proof. exact (no_panic G D parse reg rule_defs o opts). Qed.
Print Assumptions options_no_panic.

(** What is run and on what: the generators in the order given, and all the paths. *)
Theorem options_generators (G D : Type) (parse : D -> string -> option (optval G)) (reg : registry D)
  (rule_defs : forall raw n r, means G D parse reg raw (n, VOut r) -> default_name n \/ exists g, gen_name n g)
  (o : list (string * rule) -> list (string * rule)) (opts : list string) p nvs : proto_from_options G D parse o reg opts = Ok p -> Forall2 (means G D parse reg) opts nvs ->
  p_gens p = map snd (gens_of G nvs) /\ p_paths p = paths_of G nvs.
Proof. exact (proto_parts G D parse reg rule_defs o opts p nvs). Qed.
Print Assumptions options_generators.

(** Every definition of controller-gen is found by its name, however Go ranges over the maps it is made from. *)
Theorem controller_gen_options (gens : list string) (rs : string -> list string) (rs_default : list string) :
  NoDup gens -> (forall g, NoDup (rs g)) -> NoDup rs_default ->
  (forall g, In g gens -> has_char ":" g = false /\ has_char "=" g = false /\ g <> "" /\ g <> "paths") ->
  (forall g r, In r (rs g) -> has_char ":" r = false /\ has_char "=" r = false) ->
  (forall r, In r rs_default -> has_char ":" r = false /\ has_char "=" r = false) ->
  let found text := option_map (fun d => (d_name d, d_payload d)) (lookup _ (register_all _ (option_defs gens rs rs_default)) ("+" ++ text) DescribesPackage) in
  (forall g, In g gens -> found g = Some (g, KGen g)) /\
  (forall g r rest, In g gens -> In r (rs g) ->
     found ("output:" ++ g ++ ":" ++ r)%string = Some (("output:" ++ g ++ ":" ++ r)%string, KRule r) /\
     found (("output:" ++ g ++ ":" ++ r) ++ "=" ++ rest)%string = Some (("output:" ++ g ++ ":" ++ r)%string, KRule r)) /\
  (forall r rest, In r rs_default ->
     found ("output:" ++ r)%string = Some (("output:" ++ r)%string, KRule r) /\
     found (("output:" ++ r) ++ "=" ++ rest)%string = Some (("output:" ++ r)%string, KRule r)).
Proof.
  intros N1 N2 N3 P1 P2 P3 found. split; [|split].
  - intros g Hg. unfold found. rewrite (proj1 (gen_option gens rs rs_default N1 N2 N3 P1 P3 g "" Hg)). reflexivity.
  - intros g r rest Hg Hr. destruct (rule_option gens rs rs_default N1 N2 N3 P1 P2 P3 g r rest Hg Hr) as [E1 E2]. unfold found. rewrite E1, E2. auto.
  - intros r rest Hr. destruct (default_option gens rs rs_default N1 N2 N3 P1 P3 r rest Hr) as [E1 E2]. unfold found. rewrite E1, E2. auto.
Qed.
Print Assumptions controller_gen_options.

(** So the hypothesis [rule_defs] holds of it. *)
Theorem controller_gen_rule_names (gens : list string) (rs : string -> list string) (rs_default : list string) (G : Type) (parse : option_kind -> string -> option (optval G)) :
  (forall g, In g gens -> has_char ":" g = false /\ has_char "=" g = false /\ g <> "" /\ g <> "paths") ->
  (forall r, In r rs_default -> has_char ":" r = false /\ has_char "=" r = false) ->
  (forall k text r, parse k text = Some (VOut r) -> exists x, k = KRule x) ->
  forall raw n r, means G option_kind parse (register_all _ (option_defs gens rs rs_default)) raw (n, VOut r) -> default_name n \/ exists g, gen_name n g.
Proof. intros P1 P3. exact (main_rule_defs gens rs rs_default P1 P3 G parse). Qed.
Print Assumptions controller_gen_rule_names.

(** A demo command line. *)
Definition demo_parse (k : option_kind) (raw : string) : option (optval string) :=
  match k with
  | KGen g => Some (VGen g)
  | KRule r => match argument_text false raw with
               | Some t => if String.eqb r "dir" then Some (VOut (ToDirectory t)) else if String.eqb r "stdout" then Some (VOut ToStdout) else Some (VOut ToNothing)
               | None => None
               end
  | KPaths => match argument_text false raw with Some t => Some (VPaths (split_char ";" t)) | None => None end
  end.
Definition demo_options := option_defs ["crd"; "rbac"; "object"] (fun _ => ["dir"; "none"; "stdout"]) ["stdout"; "dir"; "none"].
Definition demo_reg := register_all _ demo_options.
Definition demo_run (opts : list string) := proto_from_options string option_kind demo_parse (@rev _) demo_reg opts.
Example options_demo :
  demo_run ["rbac"; "+crd"; "paths=./a;./b"; "output:crd:dir=x"; "output:crd:dir=y"; "output:stdout"; "paths=./c"]
  = Ok (mkProto ["./a"; "./b"; "./c"] ["rbac"; "crd"] (mkRules (Some ToStdout) [(1, ToDirectory "y")]) [("rbac", 0); ("crd", 1)]).
Proof. vm_compute. reflexivity. Qed.
Example options_demo_errors : demo_run ["crd"; "nonsense"] = Err /\ demo_run ["crd"; "crd"] = Err /\ demo_run ["crd"; "output:rbac:dir=x"] = Err.
Proof. repeat split; vm_compute; reflexivity. Qed.
Example options_demo_rule_defs : forall raw n r, means string option_kind demo_parse demo_reg raw (n, VOut r) -> default_name n \/ exists g, gen_name n g.
Proof.
  apply (controller_gen_rule_names ["crd"; "rbac"; "object"] (fun _ => ["dir"; "none"; "stdout"]) ["stdout"; "dir"; "none"] string demo_parse).
  - intros g [<-|[<-|[<-|[]]]]; repeat split; discriminate.
  - intros r [<-|[<-|[<-|[]]]]; split; reflexivity.
  - intros k text r. destruct k as [g|x|]; unfold demo_parse; [discriminate|intros _; exists x; reflexivity|]. destruct (argument_text false text); discriminate.
Qed.

(** An empty option crashes. *)
Theorem options_empty_refuted : exists opts, demo_run opts = Panic.
Proof. exists ["crd"; ""]. vm_compute. reflexivity. Qed.
Print Assumptions options_empty_refuted.

(** ** C22 *)

(** Every generator is called once, in order, with its own rule, whatever the others return. *)
Theorem run_calls (G W : Type) (act : G -> option rule -> bool -> W -> W * option string) (needs_check : G -> bool)
  (pkg : Type) (errors_of : W -> pkg -> list bool) (visit : W -> list pkg -> list pkg) (imports : W -> pkg -> list pkg) :
  (forall w roots p, In p (visit w roots) <-> exists r, In r roots /\ reaches (imports w) r p) ->
  forall rs gens roots w, gens <> [] ->
  exists es w' b, called G W act needs_check (for_generator rs) gens w es w' /\
    run G W act needs_check pkg errors_of visit rs gens roots w = (w', flat_map (fun e => match e with Some x => [x] | None => [] end) es, b) /\
    (b = true <-> (exists e, In (Some e) es) \/ exists r p, In r roots /\ reaches (imports w') r p /\ In false (errors_of w' p)).
Proof. intros V. exact (run_spec G W act needs_check pkg errors_of visit imports V). Qed.
Print Assumptions run_calls.

(** There is only one such sequence of calls. *)
Theorem run_calls_unique (G W : Type) (act : G -> option rule -> bool -> W -> W * option string) (needs_check : G -> bool) rule_of gens w es es' w' w'' :
  called G W act needs_check rule_of gens w es w' -> called G W act needs_check rule_of gens w es' w'' -> es = es' /\ w' = w''.
Proof. exact (called_fun G W act needs_check rule_of gens w es es' w' w''). Qed.
Print Assumptions run_calls_unique.

Theorem run_nothing (G W : Type) (act : G -> option rule -> bool -> W -> W * option string) (needs_check : G -> bool)
  (pkg : Type) (errors_of : W -> pkg -> list bool) (visit : W -> list pkg -> list pkg) rs roots w :
  run G W act needs_check pkg errors_of visit rs [] roots w = (w, ["no generators to run"], true).
Proof. reflexivity. Qed.
Print Assumptions run_nothing.

(** The world is the list of calls; generator "b" fails, package 2 has a type error, package 3 a parse error. *)
Definition demo_act (g : string) (r : option rule) (c : bool) (w : list (string * option rule * bool)) := (w ++ [(g, r, c)], if String.eqb g "b" then Some "boom" else None).
Example run_demo :
  let go errs gens := run string _ demo_act (fun g => String.eqb g "c") nat errs (fun _ roots => roots) (mkRules (Some ToStdout) [(1, ToNothing)]) gens [1; 2; 3] [] in
  go (fun _ p => if Nat.eqb p 2 then [true] else []) [(0, "a"); (1, "b"); (2, "c")] = ([("a", Some ToStdout, false); ("b", Some ToNothing, false); ("c", Some ToStdout, true)], ["boom"], true) /\
  snd (go (fun _ p => if Nat.eqb p 2 then [true] else []) [(0, "a"); (2, "c")]) = false /\
  snd (go (fun _ p => if Nat.eqb p 3 then [true; false] else []) [(0, "a"); (2, "c")]) = true.
Proof. repeat split. Qed.
Example run_demo_visit : forall (w : list (string * option rule * bool)) (roots : list nat) p, In p ((fun _ r => r) w roots) <-> exists r, In r roots /\ reaches (fun _ => []) r p.
Proof.
  intros w roots p. split; [intros H; exists p; split; [exact H|constructor]|]. intros (r & H & R). inversion R as [|? q ? Hq]; subst; [exact H|destruct Hq].
Qed.

(** ** C23 *)

(** The rule used for a generator: the last one given for it; without one the last default; without one its own directory. *)
Theorem output_rule (G D : Type) (parse : D -> string -> option (optval G)) (reg : registry D)
  (rule_defs : forall raw n r, means G D parse reg raw (n, VOut r) -> default_name n \/ exists g, gen_name n g)
  (o : list (string * rule) -> list (string * rule)) (pjoin : string -> string -> string) (o1 : list (string * nat) -> list (string * nat)) (o2 : list (nat * rule) -> list (nat * rule))
  (opts : list string) p nvs i n g r : is_order o -> is_order o1 -> is_order o2 ->
  proto_from_options G D parse o reg opts = Ok p -> Forall2 (means G D parse reg) opts nvs -> nth_error (gens_of G nvs) i = Some (n, g) ->
  (for_generator (runtime_rules G pjoin o1 o2 p) i = Some r <->
   rule_given G nvs n r \/ (no_rule_given G nvs n /\ (default_given G nvs r \/ (no_default_given G nvs /\ r = Artifacts (pjoin "config" n) "")))).
Proof. intros Ho Ho1 Ho2. exact (runtime_rule G D parse reg rule_defs o Ho pjoin o1 o2 Ho1 Ho2 opts p nvs i n g r). Qed.
Print Assumptions output_rule.

Definition demo_join (a b : string) : string := (a ++ "/" ++ b)%string.
Example output_rule_demo :
  let rule_for opts i := match demo_run opts with Ok p => for_generator (runtime_rules string demo_join (@rev _) (@rev _) p) i | _ => None end in
  rule_for ["crd"; "rbac"; "output:crd:dir=x"; "output:stdout"] 0 = Some (ToDirectory "x") /\
  rule_for ["crd"; "rbac"; "output:crd:dir=x"; "output:stdout"] 1 = Some ToStdout /\
  rule_for ["crd"; "rbac"; "output:crd:dir=x"] 0 = Some (ToDirectory "x") /\
  rule_for ["crd"; "rbac"; "output:crd:dir=x"] 1 = Some (Artifacts "config/rbac" "").
Proof. vm_compute. repeat split. Qed.

(** Where an artifact goes. *)
Definition destination (pjoin : string -> string -> string) (pdir : string -> string) (r : rule) (pkg : option (list string)) (item : string) (s : sink) : Prop :=
  match r with
  | ToNothing => s = Discard
  | ToStdout => s = Stdout
  | ToDirectory d => s = File (pjoin d item)
  | Artifacts config code =>
      pkg = None /\ s = File (pjoin config item) \/
      (exists files, pkg = Some files /\ code <> "" /\ s = File (pjoin code item)) \/
      (exists f files, pkg = Some (f :: files) /\ code = "" /\ s = File (pjoin (pdir f) item))
  end.
(** An open artifact is at its destination; only that file is created, after at most one directory. *)
Theorem output_destination pjoin pdir mkdir_ok create_ok stat_missing r pkg item ops s :
  open pjoin pdir mkdir_ok create_ok stat_missing r pkg item = (ops, Some s) ->
  destination pjoin pdir r pkg item s /\
  match s with
  | File path => create_ok path = true /\ (ops = [Create path] \/ exists d, ops = [MkdirAll d; Create path] /\ mkdir_ok d = true)
  | _ => ops = []
  end.
Proof.
  assert (Hdir : forall d, open_dir pjoin pdir mkdir_ok create_ok d item = (ops, Some s) -> s = File (pjoin d item) /\ create_ok (pjoin d item) = true /\ ops = [MkdirAll (pdir (pjoin d item)); Create (pjoin d item)] /\ mkdir_ok (pdir (pjoin d item)) = true).
  { intros d. unfold open_dir, create. destruct (mkdir_ok (pdir (pjoin d item))) eqn:M; [|discriminate]. destruct (create_ok (pjoin d item)) eqn:C; [|discriminate]. intros [= <- <-]. auto. }
  destruct r as [|d| |config code]; cbn [open destination].
  - intros [= <- <-]. auto.
  - intros H. apply Hdir in H as (-> & C & -> & M). split; [reflexivity|]. split; [exact C|]. right. eexists. split; [reflexivity|exact M].
  - intros [= <- <-]. auto.
  - destruct pkg as [files|].
    + destruct (String.eqb_spec code "") as [->|E]; cbn [negb].
      * destruct files as [|f files]; [discriminate|]. unfold create. destruct (stat_missing (pdir f)).
        -- destruct (mkdir_ok (pdir f)) eqn:M; [|discriminate]. destruct (create_ok (pjoin (pdir f) item)) eqn:C; [|discriminate]. intros [= <- <-]. split; [right; right; exists f, files; auto|]. split; [exact C|]. right. exists (pdir f). auto.
        -- destruct (create_ok (pjoin (pdir f) item)) eqn:C; [|discriminate]. intros [= <- <-]. split; [right; right; exists f, files; auto|]. auto.
      * intros H. apply Hdir in H as (-> & C & -> & M). split; [right; left; exists files; auto|]. split; [exact C|]. right. eexists. split; [reflexivity|exact M].
    + intros H. apply Hdir in H as (-> & C & -> & M). split; [left; auto|]. split; [exact C|]. right. eexists. split; [reflexivity|exact M].
Qed.
Print Assumptions output_destination.

(** With a willing file system, opening fails only for code of a package without files and without a code directory. *)
Theorem output_open_fails pjoin pdir stat_missing r pkg item :
  snd (open pjoin pdir (fun _ => true) (fun _ => true) stat_missing r pkg item) = None <-> pkg = Some [] /\ exists config, r = Artifacts config "".
Proof.
  split.
  - destruct r as [|d| |config code]; try discriminate. destruct pkg as [files|]; [|discriminate]. cbn [open]. destruct (String.eqb_spec code "") as [->|E]; cbn [negb]; [|discriminate].
    destruct files as [|f files]; [intros _; split; [reflexivity|exists config; reflexivity]|]. destruct (stat_missing (pdir f)); discriminate.
  - intros [-> [config ->]]. reflexivity.
Qed.
Print Assumptions output_open_fails.

(** What a successful WriteYAML leaves behind: the header and the documents, nothing else touched. *)
Theorem write_yaml_content (Obj : Type) (marshal : Obj -> option string) wr opn header objs w w' :
  write_yaml Obj marshal wr opn header objs w = (w', true) ->
  exists s ys, opn = Some s /\ Forall2 (fun o y => marshal o = Some y) objs ys /\
    let text := (header ++ join "" (map (fun y => "---" ++ String (ascii_of_nat 10) y)%string ys))%string in
    match s with
    | Discard => w' = w
    | Stdout => w_files w' = w_files w /\ w_stdout w' = (w_stdout w ++ text)%string
    | File p => mget String.eqb (w_files w') p = Some text /\ w_stdout w' = w_stdout w /\ forall q, q <> p -> mget String.eqb (w_files w') q = mget String.eqb (w_files w) q
    end.
Proof. exact (write_ok Obj marshal wr opn header objs w w'). Qed.
Print Assumptions write_yaml_content.

(** If writes do not fail it succeeds exactly if every object can be marshalled. *)
Theorem write_yaml_succeeds (Obj : Type) (marshal : Obj -> option string) wr s header objs w : (forall k, wr k = true) ->
  ((exists w', write_yaml Obj marshal wr (Some s) header objs w = (w', true)) <-> forall o, In o objs -> marshal o <> None).
Proof. exact (write_complete Obj marshal wr s header objs w). Qed.
Print Assumptions write_yaml_succeeds.

(** Success or not, no other file is touched. *)
Theorem write_yaml_only (Obj : Type) (marshal : Obj -> option string) wr p header objs w w' b :
  write_yaml Obj marshal wr (Some (File p)) header objs w = (w', b) -> w_stdout w' = w_stdout w /\ forall q, q <> p -> mget String.eqb (w_files w') q = mget String.eqb (w_files w) q.
Proof. exact (write_failure Obj marshal wr p header objs w w' b). Qed.
Print Assumptions write_yaml_only.

Example write_yaml_demo :
  write_yaml nat (fun n => if Nat.eqb n 9 then None else Some "y") (fun _ => true) (Some (File "f")) "h" [1; 2] (mkWorld [("f", "old"); ("g", "kept")] "so")
  = (mkWorld [("f", "h---
y---
y"); ("g", "kept")] "so", true).
Proof. vm_compute. reflexivity. Qed.

(** A failed write destroys what the file held before: writing is not all or nothing. *)
Theorem write_yaml_atomic_refuted : exists (marshal : nat -> option string) objs w w',
  write_yaml nat marshal (fun _ => true) (Some (File "f")) "" objs w = (w', false) /\ mget String.eqb (w_files w') "f" <> mget String.eqb (w_files w) "f" /\ mget String.eqb (w_files w') "f" <> None.
Proof.
  exists (fun n => if Nat.eqb n 9 then None else Some "y"), [9], (mkWorld [("f", "old")] ""), (mkWorld [("f", "")] ""). split; [vm_compute; reflexivity|]. split; discriminate.
Qed.
Print Assumptions write_yaml_atomic_refuted.
