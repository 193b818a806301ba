(** * Property C17: marker lookup. *)
From Coq Require Import List String Ascii Bool Arith Permutation.
From Verif Require Import GoLib GoLibFacts RegistryModel RegistrySpec RegistryProofs.
Import ListNotations.
Open Scope string_scope.
Open Scope list_scope.

(** A marker without arguments finds the definition of its full name. *)
Theorem marker_lookup_plain (A : Type) (ds : list (def A)) t n d : has_char "=" n = false ->
  (lookup A (register_all A ds) ("+" ++ n) t = Some d <-> registered_as ds t n d).
Proof. exact (lookup_plain A ds t "+" n d). Qed.
Print Assumptions marker_lookup_plain.

(** So does a marker with arguments whose name has a single part. *)
Theorem marker_lookup_flat (A : Type) (ds : list (def A)) t n rest d : has_char "=" n = false -> has_char ":" n = false ->
  (lookup A (register_all A ds) ("+" ++ n ++ "=" ++ rest) t = Some d <-> registered_as ds t n d).
Proof. exact (lookup_flat A ds t "+" n rest d). Qed.
Print Assumptions marker_lookup_flat.

(** Otherwise the full name comes first, then the name without its last part. *)
Theorem marker_lookup (A : Type) (ds : list (def A)) t p a rest d : has_char "=" p = false -> has_char "=" a = false -> has_char ":" a = false ->
  (lookup A (register_all A ds) ("+" ++ (p ++ ":" ++ a) ++ "=" ++ rest) t = Some d <->
   registered_as ds t (p ++ ":" ++ a)%string d \/ (unregistered ds t (p ++ ":" ++ a)%string /\ registered_as ds t p d)).
Proof. exact (lookup_colon A ds t "+" p a rest d). Qed.
Print Assumptions marker_lookup.

(** Every marker text is of one of these three forms. *)
Theorem marker_forms raw : raw <> "" -> exists c body, raw = String c body /\
  (has_char "=" body = false \/
   (exists n rest, body = (n ++ "=" ++ rest)%string /\ has_char "=" n = false /\ has_char ":" n = false) \/
   (exists p a rest, body = ((p ++ ":" ++ a) ++ "=" ++ rest)%string /\ has_char "=" p = false /\ has_char "=" a = false /\ has_char ":" a = false)).
Proof.
  destruct raw as [|c body]; [congruence|]. intros _. exists c, body. split; [reflexivity|]. destruct (cut_char "=" body) as [[n rest]|] eqn:E.
  - apply cut_char_some in E as [-> H]. right. destruct (has_char ":" n) eqn:C.
    + right. apply last_colon in C as (p & a & -> & Ha). exists p, a, rest. rewrite has_char_app in H. simpl in H. apply orb_false_iff in H as [H1 H2]. auto.
    + left. exists n, rest. auto.
  - left. apply cut_char_none_inv, E.
Qed.
Print Assumptions marker_forms.

(** Without two definitions of one name and target, the order of registration does not matter. *)
Theorem marker_lookup_order (A : Type) (ds ds' : list (def A)) raw t : NoDup (map (fun d => (d_target d, d_name d)) ds) -> Permutation ds ds' ->
  lookup A (register_all A ds) raw t = lookup A (register_all A ds') raw t.
Proof. exact (lookup_perm A ds ds' raw t). Qed.
Print Assumptions marker_lookup_order.

(** What is scanned as arguments: for a definition with named arguments the last part of the name is the first argument's
    name; for an anonymous one all that follows the first '='; and nothing if there is no '='. *)
Theorem marker_arguments p a rest : has_char "=" p = false -> has_char "=" a = false -> has_char ":" a = false ->
  argument_text true ("+" ++ (p ++ ":" ++ a) ++ "=" ++ rest) = Some (a ++ "=" ++ rest)%string.
Proof. exact (arg_text_colon "+" p a rest). Qed.
Print Assumptions marker_arguments.
Theorem marker_arguments_anonymous n rest : has_char "=" n = false -> argument_text false ("+" ++ n ++ "=" ++ rest) = Some rest.
Proof. exact (arg_text_anon "+" n rest). Qed.
Print Assumptions marker_arguments_anonymous.
Theorem marker_arguments_none n b : has_char "=" n = false -> argument_text b ("+" ++ n) = Some "".
Proof. exact (arg_text_plain "+" n b). Qed.
Print Assumptions marker_arguments_none.

Definition demo_defs : list (def nat) := [mkDef "kubebuilder:validation:Enum" DescribesField 1; mkDef "kubebuilder:resource" DescribesType 2; mkDef "kubebuilder:resource:path" DescribesField 3; mkDef "paths" DescribesPackage 4].
Example marker_demo : has_char "=" "kubebuilder:resource" = false /\ has_char ":" "path" = false /\
  option_map d_payload (lookup nat (register_all nat demo_defs) "+kubebuilder:resource:path=foos,scope=Cluster" DescribesType) = Some 2 /\
  option_map d_payload (lookup nat (register_all nat demo_defs) "+kubebuilder:resource:path=foos,scope=Cluster" DescribesField) = Some 3 /\
  option_map d_payload (lookup nat (register_all nat demo_defs) "+kubebuilder:validation:Enum=a;b" DescribesField) = Some 1 /\
  option_map d_payload (lookup nat (register_all nat demo_defs) "+paths=./..." DescribesPackage) = Some 4 /\
  argument_text true "+kubebuilder:resource:path=foos,scope=Cluster" = Some "path=foos,scope=Cluster" /\
  NoDup (map (fun d => (d_target d, d_name d)) demo_defs).
Proof. repeat split; try reflexivity. repeat constructor; simpl; intuition discriminate. Qed.

(** A prefix shorter than all but the last part is not found. *)
Theorem marker_longer_prefix_refuted : exists (ds : list (def nat)) p a b rest d, registered_as ds DescribesType p d /\
  lookup nat (register_all nat ds) ("+" ++ p ++ ":" ++ a ++ ":" ++ b ++ "=" ++ rest) DescribesType = None.
Proof. exists [mkDef "m" DescribesType 1], "m", "a", "b", "1", (mkDef "m" DescribesType 1). split; [exists [], []; repeat split; intros ? []|reflexivity]. Qed.
Print Assumptions marker_longer_prefix_refuted.

(** A definition with named arguments, looked up by its full name, takes the last part of its own name for an argument. *)
Theorem marker_struct_full_name_refuted : exists (ds : list (def nat)) n d, registered_as ds DescribesType n d /\
  lookup nat (register_all nat ds) ("+" ++ n ++ "=x") DescribesType = Some d /\ argument_text true ("+" ++ n ++ "=x") = Some "resource=x".
Proof. exists [mkDef "kubebuilder:resource" DescribesType 1], "kubebuilder:resource", (mkDef "kubebuilder:resource" DescribesType 1). split; [exists [], []; repeat split; intros ? []|]. split; reflexivity. Qed.
Print Assumptions marker_struct_full_name_refuted.

(** Registering twice under one name and target: the first is lost. *)
Theorem marker_registered_twice_refuted : exists ds ds' : list (def nat), Permutation ds ds' /\
  lookup nat (register_all nat ds) "+m" DescribesType <> lookup nat (register_all nat ds') "+m" DescribesType.
Proof. exists [mkDef "m" DescribesType 1; mkDef "m" DescribesType 2], [mkDef "m" DescribesType 2; mkDef "m" DescribesType 1]. split; [apply perm_swap|discriminate]. Qed.
Print Assumptions marker_registered_twice_refuted.
