(** * From the comments of the sources to what the generators are given

    MarkersInPackage and PackageMarkers, pkg/markers/collect.go:75-144 and zip.go:122-137, put together from the
    collector (CollectModel), the registry with the tables of the generators that run (TablesModel) and the parser; then
    the rbac and the webhook generator on top (RbacModel, WebhookModel). Definitions only.

    Not modelled: the cache of MarkersInPackage and its lock. A package's error list is that of its comments; the order
    of its entries (iteration over a map, collect.go:102) is not kept: they are in the order of the files. *)

From Coq Require Import List String Bool Arith QArith.
From Verif Require Import GoLib SchemaModel RegistryModel CollectModel TablesModel.
From Verif Require RbacModel WebhookModel.
Import ListNotations.
Open Scope string_scope.
Open Scope list_scope.

(** go/ast: File with its Comments; pkg/markers/collect.go:146-152 *)
Record file := mkFile { f_groups : list group; f_root : header; f_children : list node }.
(** go/ast: the File as a node, pkg/markers/collect.go:154 *)
Definition f_node (f : file) : node := Node (f_root f) (f_children f).
(** pkg.Syntax, pkg/markers/collect.go:135 *)
Definition package := list file.

(** pkg/markers/collect.go:103-111: by the type of the node *)
Definition target_of (es : list event) (id : nat) : target :=
  match find (fun e => match e with Enter _ h => Nat.eqb (h_id h) id | Leave _ => false end) es with
  | Some (Enter _ h) => match h_kind h with KFile => DescribesPackage | KField => DescribesField | _ => DescribesType end
  | _ => DescribesType
  end.

Section Source.
  Variable fval : string -> option Q.
  Variable json_read : string -> option json.
  Variable gs : list generator.
  (** Iteration over nodeMarkers (collect.go:162), for each file, and over fileMarkers (zip.go:130) *)
  Variable order : file -> list (nat * list marker) -> list (nat * list marker).
  Variable vorder : list (string * list tvalue) -> list (string * list tvalue).

  (** MarkerValues, pkg/markers/collect.go:38-39 *)
  Definition mvals := list (string * list tvalue).

  (** pkg/markers/collect.go:98-129, for the nodes of one file: values by node, and the comments that could not be parsed.
      None: a panic in associateFileMarkers. *)
  Definition node_values (f : file) : option (list (nat * mvals) * list comment) :=
    match file_markers payload (registry_of gs) (order f) (f_groups f) (f_node f) with
    | None => None
    | Some nodes =>
        let read1 := fun kv => values payload (registry_of gs) tvalue (parse_value fval json_read) (target_of (walk true (f_node f)) (fst kv)) (snd kv) [] [] in
        Some (map (fun kv => (fst kv, fst (read1 kv))) nodes, flat_map (fun kv => snd (read1 kv)) nodes)
    end.

  (** pkg/markers/collect.go:132-144 and 98-129: all files *)
  Fixpoint all_values (p : package) : option (list (list (nat * mvals)) * list comment) :=
    match p with
    | [] => Some ([], [])
    | f :: p' =>
        match node_values f, all_values p' with
        | Some (vs, errs), Some (vss, errs') => Some (vs :: vss, errs ++ errs')
        | _, _ => None
        end
    end.

  (** MarkersInPackage, pkg/markers/collect.go:75-96, then PackageMarkers, pkg/markers/zip.go:122-137: the package's
      markers, or the comments that are errors; nothing of a package with an error is used. *)
  Definition package_set (p : package) : option (mvals + list comment) :=
    match all_values p with
    | None => None
    | Some (vss, []) =>
        Some (inl (package_values tvalue vorder (map (fun fv => match mget Nat.eqb (snd fv) (h_id (f_root (fst fv))) with Some m => m | None => [] end) (combine p vss)) []))
    | Some (_, errs) => Some (inr errs)
    end.

  (** MarkersInPackage's result for one node of a package, pkg/markers/collect.go:75-96 *)
  Definition node_set (p : package) (id : nat) : option (mvals + list comment) :=
    match all_values p with
    | None => None
    | Some (vss, []) => Some (inl (match find (fun nv => Nat.eqb (fst nv) id) (List.concat vss) with Some (_, m) => m | None => [] end))
    | Some (_, errs) => Some (inr errs)
    end.

  (** pkg/rbac/parser.go:186-190 and pkg/webhook/parser.go:451-455: a package with errors has the error added and goes on
      without markers. The second component: the errors added. *)
  Fixpoint root_sets (ps : list package) : option (list mvals * list comment) :=
    match ps with
    | [] => Some ([], [])
    | p :: ps' =>
        match package_set p, root_sets ps' with
        | Some (inl m), Some (ms, errs) => Some (m :: ms, errs)
        | Some (inr e), Some (ms, errs) => Some ([] :: ms, e ++ errs)
        | _, _ => None
        end
    end.

  (** Indexing a marker set, pkg/markers/collect.go:41-49 and pkg/rbac/parser.go:193 *)
  Definition of_name (m : mvals) (n : string) : list tvalue := match mget String.eqb m n with Some l => l | None => [] end.
  (** The type assertion in pkg/rbac/parser.go:194 *)
  Definition rules_of (m : mvals) : list RbacModel.rule := flat_map (fun v => match v with TvRule r => [r] | _ => [] end) (of_name m "kubebuilder:rbac").
  (** The type assertions in pkg/webhook/parser.go:460 and :491 *)
  Definition hooks_of (m : mvals) : WebhookModel.root :=
    (flat_map (fun v => match v with TvHookConfig w => [w] | _ => [] end) (of_name m "kubebuilder:webhookconfiguration"),
     flat_map (fun v => match v with TvHook h => [h] | _ => [] end) (of_name m "kubebuilder:webhook")).

  (** GenerateRoles, pkg/rbac/parser.go:184-367: the objects, and the errors added to the packages *)
  Definition roles (nso : list string -> list string) (o : string -> RbacModel.orders) (ps : list package) (role_name : string)
      : option (list RbacModel.obj * list comment) :=
    match root_sets ps with
    | None => None
    | Some (ms, errs) => Some (RbacModel.generate_roles nso o (map rules_of ms) role_name, errs)
    end.

  (** Generate, pkg/webhook/parser.go:444-615: the files (None: an error), and the errors added to the packages *)
  Definition manifests (lower : string -> string) (ord : list string -> list string) (ps : list package)
      : option (option (list (string * list WebhookModel.object)) * list comment) :=
    match root_sets ps with
    | None => None
    | Some (ms, errs) => Some (WebhookModel.generate lower ord (map hooks_of ms), errs)
    end.
End Source.
