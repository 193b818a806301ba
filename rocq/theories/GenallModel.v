(** * Model of pkg/genall (options.go, genall.go, output.go) and of the option registry of cmd/controller-gen/main.go.
    Definitions only.

    A [*Generator] is its position among the generators given. Path handling (filepath.Join, filepath.Dir), parsing of an
    option's arguments, YAML marshalling, loading packages and the generators themselves are parameters. *)

From Coq Require Import List String Ascii Bool Arith.
From Verif Require Import GoLib RegistryModel.
Import ListNotations.
Open Scope string_scope.
Open Scope list_scope.

Inductive outcome (A : Type) := Ok (a : A) | Err | Panic.
Arguments Ok {A}.
Arguments Err {A}.
Arguments Panic {A}.

(** ** Output rules *)

(** pkg/genall/output.go:85-142: the output rules that exist *)
Inductive rule :=
| ToNothing
| ToDirectory (dir : string)
| ToStdout
| Artifacts (config code : string).

(** pkg/genall/output.go:56-65; [None] is the nil interface *)
Record rules := mkRules { r_default : option rule; r_by_gen : list (nat * rule) }.

(** pkg/genall/output.go:69-74 *)
Definition for_generator (o : rules) (gen : nat) : option rule :=
  match mget Nat.eqb (r_by_gen o) gen with
  | Some r => Some r
  | None => r_default o
  end.

Section Paths.
  Variable pjoin : string -> string -> string.   (* filepath.Join *)
  Variable pdir : string -> string.              (* filepath.Dir *)

  (** pkg/genall/output.go:41-54; [o] is the order in which Go ranges over the map *)
  Definition directory_per_generator (o : list (string * nat) -> list (string * nat)) (base : string) (gens : list (string * nat)) : rules :=
    mkRules (Some (Artifacts base ""))
      (fold_left (fun m ng => mset Nat.eqb m (snd ng) (Artifacts (pjoin base (fst ng)) "")) (o gens) []).

  (** ** Opening an artifact *)

  (** What the writer returned by Open writes to. The results of the Open methods, pkg/genall/output.go:91-165. *)
  Inductive sink := Discard | Stdout | File (path : string).
  (** Calls on the file system, in order. The calls at pkg/genall/output.go:105, :109 and :164. *)
  Inductive fsop := MkdirAll (path : string) | Create (path : string).

  (** The file system: which calls succeed, and which directories exist. *)
  Variable mkdir_ok : string -> bool.
  Variable create_ok : string -> bool.
  Variable stat_missing : string -> bool.

  (** Go: os.Create. Called at pkg/genall/output.go:109 and :164. *)
  Definition create (before : list fsop) (path : string) : list fsop * option sink :=
    (before ++ [Create path], if create_ok path then Some (File path) else None).

  (** pkg/genall/output.go:103-110 *)
  Definition open_dir (o item : string) : list fsop * option sink :=
    let d := pdir (pjoin o item) in
    if mkdir_ok d then create [MkdirAll d] (pjoin o item) else ([MkdirAll d], None).

  (** pkg/genall/output.go:93-95, 103-110, 124-126, 144-165; a package is its compiled files *)
  Definition open (r : rule) (pkg : option (list string)) (item : string) : list fsop * option sink :=
    match r with
    | ToNothing => ([], Some Discard)
    | ToStdout => ([], Some Stdout)
    | ToDirectory d => open_dir d item
    | Artifacts config code =>
        match pkg with
        | None => open_dir config item
        | Some files =>
            if negb (String.eqb code "") then open_dir code item
            else match files with
                 | [] => ([], None)
                 | f :: _ =>
                     let out := pdir f in
                     if stat_missing out
                     then if mkdir_ok out then create [MkdirAll out] (pjoin out item) else ([MkdirAll out], None)
                     else create [] (pjoin out item)
                 end
        end
    end.
End Paths.

(** ** Writing YAML *)
Section WriteYAML.
  Variable Obj : Type.
  Variable marshal : Obj -> option string.  (* yamlMarshal with the options given *)

  (** The outside world: files and what went to standard output. What pkg/genall/output.go:91-165 acts on. *)
  Record world := mkWorld { w_files : list (string * string); w_stdout : string }.

  (** Writing to an open sink; os.Create left an empty file. Writing to the result of Open,
      pkg/genall/genall.go:144-170. *)
  Definition put (s : sink) (data : string) (w : world) : world :=
    match s with
    | Discard => w
    | Stdout => mkWorld (w_files w) (w_stdout w ++ data)
    | File p => mkWorld (mset String.eqb (w_files w) p (match mget String.eqb (w_files w) p with Some old => old | None => "" end ++ data)%string) (w_stdout w)
    end.
  (** What opening did to the world: os.Create truncates. os.Create, called at pkg/genall/output.go:109 and :164. *)
  Definition opened (s : sink) (w : world) : world :=
    match s with
    | File p => mkWorld (mset String.eqb (w_files w) p "") (w_stdout w)
    | _ => w
    end.

  (** pkg/genall/genall.go:156-170; [wr k] says whether the k-th write of the run succeeds *)
  Fixpoint write_objs (wr : nat -> bool) (k : nat) (s : sink) (objs : list Obj) (w : world) : world * bool :=
    match objs with
    | [] => (w, true)
    | o :: rest =>
        match marshal o with
        | None => (w, false)
        | Some y => if wr k then write_objs wr (S k) s rest (put s ("---" ++ String (ascii_of_nat 10) y) w) else (w, false)
        end
    end.
  (** pkg/genall/genall.go:144-171; [None]: g.Open failed *)
  Definition write_yaml (wr : nat -> bool) (opn : option sink) (header : string) (objs : list Obj) (w : world) : world * bool :=
    match opn with
    | None => (w, false)
    | Some s =>
        let w := opened s w in
        if wr 0 then write_objs wr 1 s objs (put s header w) else (w, false)
    end.
End WriteYAML.

(** ** Options *)

Section Options.
  Variable G : Type.                        (* generators *)
  (** The values of options that the switch in pkg/genall/options.go:140-161 tells apart *)
  Inductive optval := VGen (g : G) | VOut (r : rule) | VPaths (ps : list string) | VOther.
  Variable D : Type.
  Variable parse : D -> string -> option optval.  (* Definition.Parse *)

  (** pkg/genall/options.go:184-189 *)
  Record proto := mkProto { p_paths : list string; p_gens : list G; p_rules : rules; p_by_name : list (string * nat) }.

  (** pkg/genall/options.go:193-201: the generator name. None: parts[1] panics. *)
  Definition split_output_rule_option (name : string) : option string :=
    match cut_char ":" name with
    | None => None
    | Some (_, rest) => match cut_char ":" rest with None => Some "" | Some (g, _) => Some g end
    end.

  (** The variables of the loop. pkg/genall/options.go:114-130. *)
  Record st := mkSt { s_gens : list G; s_default : option rule; s_out : list (string * rule); s_names : list (string * nat); s_paths : list string }.

  (** pkg/genall/options.go:126-129 *)
  Definition with_plus (raw : string) : option string :=
    match raw with
    | EmptyString => None
    | String c _ => Some (if Ascii.eqb c "+" then raw else String "+" raw)
    end.

  (** pkg/genall/options.go:126-162, one iteration *)
  Definition step (reg : registry D) (s : st) (raw : string) : outcome st :=
    match with_plus raw with
    | None => Panic
    | Some raw =>
        match lookup D reg raw DescribesPackage with
        | None => Err
        | Some d =>
            match parse (d_payload d) raw with
            | None => Err
            | Some (VGen g) =>
                if match mget String.eqb (s_names s) (d_name d) with Some _ => true | None => false end then Err
                else Ok (mkSt (s_gens s ++ [g]) (s_default s) (s_out s) (mset String.eqb (s_names s) (d_name d) (List.length (s_gens s))) (s_paths s))
            | Some (VOut r) =>
                match split_output_rule_option (d_name d) with
                | None => Panic
                | Some gen =>
                    if String.eqb gen "" then Ok (mkSt (s_gens s) (Some r) (s_out s) (s_names s) (s_paths s))
                    else Ok (mkSt (s_gens s) (s_default s) (mset String.eqb (s_out s) gen r) (s_names s) (s_paths s))
                end
            | Some (VPaths ps) => Ok (mkSt (s_gens s) (s_default s) (s_out s) (s_names s) (s_paths s ++ ps))
            | Some VOther => Err
            end
        end
    end.
  (** The loop of pkg/genall/options.go:126-162 *)
  Fixpoint steps (reg : registry D) (s : st) (opts : list string) : outcome st :=
    match opts with
    | [] => Ok s
    | raw :: rest => match step reg s raw with Ok s' => steps reg s' rest | Err => Err | Panic => Panic end
    end.

  (** pkg/genall/options.go:165-172 *)
  Fixpoint associate (names : list (string * nat)) (outs : list (string * rule)) (acc : list (nat * rule)) : option (list (nat * rule)) :=
    match outs with
    | [] => Some acc
    | (n, r) :: rest =>
        match mget String.eqb names n with
        | None => None
        | Some g => associate names rest (mset Nat.eqb acc g r)
        end
    end.

  (** pkg/genall/options.go:114-180; [o] is the order in which Go ranges over outputByGen *)
  Definition proto_from_options (o : list (string * rule) -> list (string * rule)) (reg : registry D) (opts : list string) : outcome proto :=
    match steps reg (mkSt [] None [] [] []) opts with
    | Err => Err
    | Panic => Panic
    | Ok s =>
        match associate (s_names s) (o (s_out s)) [] with
        | None => Err
        | Some m => Ok (mkProto (s_paths s) (s_gens s) (mkRules (s_default s) m) (s_names s))
        end
    end.

  (** pkg/genall/options.go:93-108: the output rules of the runtime; [o1], [o2] are the orders of the two ranges *)
  Definition runtime_rules (pjoin : string -> string -> string) (o1 : list (string * nat) -> list (string * nat)) (o2 : list (nat * rule) -> list (nat * rule)) (p : proto) : rules :=
    match r_default (p_rules p) with
    | Some _ => p_rules p
    | None =>
        let base := directory_per_generator pjoin o1 "config" (p_by_name p) in
        mkRules (r_default base) (fold_left (fun m gr => mset Nat.eqb m (fst gr) (snd gr)) (o2 (r_by_gen (p_rules p))) (r_by_gen base))
    end.

  (** ** Run *)

  Variable W : Type.                       (* everything generators share: packages, markers, files *)
  Variable act : G -> option rule -> bool -> W -> W * option string.
  (* Generate with its context: the output rule and whether there is a type checker *)
  Variable needs_check : G -> bool.        (* implements NeedsTypeChecking *)
  Variable pkg : Type.
  Variable errors_of : W -> pkg -> list bool.  (* packages.Package.Errors: is it a type error? *)
  Variable visit : W -> list pkg -> list pkg.  (* the order in which packages.Visit calls its post function *)

  (** pkg/genall/genall.go:264-279; generators with their identity *)
  Fixpoint run_loop (rs : rules) (gens : list (nat * G)) (w : W) (printed : list string) (had : bool) : W * list string * bool :=
    match gens with
    | [] => (w, printed, had)
    | (i, g) :: rest =>
        match act g (for_generator rs i) (needs_check g) w with
        | (w', None) => run_loop rs rest w' printed had
        | (w', Some e) => run_loop rs rest w' (printed ++ [e]) true
        end
    end.
  (** pkg/loader/loader.go:44-64, called with TypeError *)
  Definition print_errors (w : W) (roots : list pkg) : bool :=
    existsb (fun p => existsb negb (errors_of w p)) (visit w roots).
  (** pkg/genall/genall.go:252-283 *)
  Definition run (rs : rules) (gens : list (nat * G)) (roots : list pkg) (w : W) : W * list string * bool :=
    match gens with
    | [] => (w, ["no generators to run"], true)
    | _ :: _ =>
        match run_loop rs gens w [] false with
        | (w', printed, had) => (w', printed, print_errors w' roots || had)
        end
    end.
End Options.
Arguments VGen {G}.
Arguments VOut {G}.
Arguments VPaths {G}.
Arguments VOther {G}.
Arguments mkProto {G}.
Arguments p_paths {G}.
Arguments p_gens {G}.
Arguments p_rules {G}.
Arguments p_by_name {G}.

(** ** The options of controller-gen *)

(** What an option stands for: the payload of its definition. The options registered in
    cmd/controller-gen/main.go:78-120. *)
Inductive option_kind := KGen (name : string) | KRule (name : string) | KPaths.

(** cmd/controller-gen/main.go:78-120; [gens] and [rs] are the two maps in the order Go ranges over them ([rs'] for each
    generator and once more) *)
Definition option_defs (gens : list string) (rs : string -> list string) (rs_default : list string) : list (def option_kind) :=
  flat_map (fun g => mkDef g DescribesPackage (KGen g)
                     :: map (fun r => mkDef ("output:" ++ g ++ ":" ++ r)%string DescribesPackage (KRule r)) (rs g)) gens
  ++ map (fun r => mkDef ("output:" ++ r)%string DescribesPackage (KRule r)) rs_default
  ++ [mkDef "paths" DescribesPackage KPaths].
