(** * What the CRD of a kind is to be. *)
From Coq Require Import List String Ascii Bool ZArith Permutation Sorted.
From Verif Require Import GoLib SchemaModel CrdModel.
Import ListNotations.
Open Scope nat_scope.
Open Scope string_scope.
Open Scope list_scope.

(** The kind of a marker; a registry has each kind under one name. *)
Inductive ckind := KStatus | KScale | KStorage | KSkip | KColumn | KResource | KUnserved | KDeprecated | KMetadata | KSelectable | KOther.
Definition ckind_of (m : cval) : ckind :=
  match m with
  | CStatus => KStatus | CScale _ => KScale | CStorage => KStorage | CSkip => KSkip | CColumn _ => KColumn | CResource _ => KResource | CUnserved => KUnserved
  | CDeprecated _ => KDeprecated | CMetadata _ _ => KMetadata | CSelectable _ => KSelectable | COther => KOther
  end.
Definition registered (ms : cmarkers) : Prop :=
  NoDup (map fst ms) /\ forall n vs m n' vs' m', In (n, vs) ms -> In m vs -> In (n', vs') ms -> In m' vs' -> ckind_of m = ckind_of m' -> ckind_of m <> KOther -> n = n'.

(** The last of the values some markers give *)
Fixpoint last_of {A} (f : cval -> option A) (l : list cval) : option A :=
  match l with [] => None | m :: l' => match last_of f l' with Some x => Some x | None => f m end end.
Definition scale_in (m : cval) : option scale := match m with CScale s => Some s | _ => None end.
Definition warning_in (m : cval) : option (option string) := match m with CDeprecated w => Some w | _ => None end.
Definition columns_in (l : list cval) : list column := flat_map (fun m => match m with CColumn c => [c] | _ => [] end) l.
Definition fields_in (l : list cval) : list string := flat_map (fun m => match m with CSelectable p => [p] | _ => [] end) l.
Definition wants_sub (m : cval) : Prop := match m with CStatus | CScale _ | CColumn _ => True | _ => False end.

(** A version, by the markers of its type in their order *)
Record version_spec (n : string) (sch : schema) (l : list cval) (only : Prop) (v : version) : Prop := {
  vs_name : v_name v = n;
  vs_schema : v_schema v = sch;
  vs_served : v_served v = true <-> ~ In CUnserved l;
  vs_storage : v_storage v = true <-> only \/ (n <> "" /\ In CStorage l);
  vs_deprecated : v_deprecated v = true <-> n <> "" /\ exists w, In (CDeprecated w) l;
  vs_warning : v_warning v = if String.eqb n "" then None else match last_of warning_in l with Some w => w | None => None end;
  vs_sub : v_sub v = None <-> forall m, In m l -> ~ wants_sub m;
  vs_status : forall s, v_sub v = Some s -> (su_status s = true <-> In CStatus l);
  vs_scale : forall s, v_sub v = Some s -> su_scale s = last_of scale_in l;
  vs_columns : v_columns v = columns_in l;
  vs_fields : v_fields v = fields_in l }.

(** Annotations and labels of a metadata marker: pairs separated at the first =; an annotation without one ends it all *)
Definition pair_in (s : string) (kv : string * string) : Prop := s = (fst kv ++ "=" ++ snd kv)%string /\ has_char "="%char (fst kv) = false.
Definition well_formed (s : string) : Prop := has_char "="%char s = true.
Definition annotates (m : cval) (kv : string * string) : Prop :=
  exists a l pre s post, m = CMetadata a l /\ a = pre ++ s :: post /\ Forall well_formed pre /\ pair_in s kv.
Definition labels (m : cval) (kv : string * string) : Prop :=
  exists a l s, m = CMetadata a l /\ Forall well_formed a /\ In s l /\ pair_in s kv.
(** Markers that cannot be applied whatever the other markers *)
Definition bad_marker (n : string) (m : cval) : Prop := (m = CSkip /\ n = "") \/ exists a l, m = CMetadata a l /\ ~ Forall well_formed a.
(** Markers that need the version *)
Definition needs_version (m : cval) : Prop := match m with CStatus | CScale _ | CColumn _ | CSelectable _ => True | _ => False end.

Section Spec.
  Variable group_versions : list (string * (string * string)).
  Variable types : string * string -> option cmarkers.
  Variables group kind : string.
  (** Package [p] defines the kind for version [n], with markers [ms] *)
  Definition defines (p n : string) (ms : cmarkers) : Prop := In (p, (group, n)) group_versions /\ types (p, kind) = Some ms.
  Definition carries (p n : string) (m : cval) : Prop := exists ms name vs, defines p n ms /\ In (name, vs) ms /\ In m vs.
  Definition skipped (n : string) : Prop := n <> "" /\ exists p, carries p n CSkip.
  Definition kept (n : string) : Prop := (exists p ms, defines p n ms) /\ ~ skipped n.
  (** What makes the result independent of orders: no version in two packages, no marker that needs the version beside skipversion, resource markers and metadata that agree *)
  Definition distinct_versions : Prop := forall p ms p' ms' n, defines p n ms -> defines p' n ms' -> p = p'.
  Definition no_skip_clash : Prop := forall p n m, carries p n m -> needs_version m -> ~ skipped n.
  Definition resources_agree : Prop := forall p n r p' n' r', carries p n (CResource r) -> carries p' n' (CResource r') -> r = r'.
  Definition metadata_agree (f : cval -> string * string -> Prop) : Prop := forall p n m p' n' m' k v v', carries p n m -> f m (k, v) -> carries p' n' m' -> f m' (k, v') -> v = v'.
  Definition all_registered : Prop := forall p n ms, defines p n ms -> registered ms.
End Spec.

(** The results sort.Slice may give *)
Definition sorts_by {A} (lt : A -> A -> bool) (f : list A -> list A) : Prop := forall l, Permutation (f l) l /\ StronglySorted (fun a b => lt b a = false) (f l).
(** CRDs that are the same, annotations and labels taken as maps *)
Definition same_crd (c c' : crd) : Prop :=
  c_name c = c_name c' /\ c_group c = c_group c' /\ c_names c = c_names c' /\ c_versions c = c_versions c' /\
  (forall k, mget String.eqb (c_annotations c) k = mget String.eqb (c_annotations c') k) /\ (forall k, mget String.eqb (c_labels c) k = mget String.eqb (c_labels c') k).

(** ** The generator *)
(** The CRD written for CRD [c] *)
Record published (tool_version : string) (c x : crd) : Prop := {
  pu_name : c_name x = c_name c;
  pu_group : c_group x = c_group c;
  pu_names : c_names x = c_names c;
  pu_labels : c_labels x = c_labels c;
  pu_annotations : forall k, mget String.eqb (c_annotations x) k = if String.eqb k "controller-gen.kubebuilder.io/version" then Some tool_version else mget String.eqb (c_annotations c) k;
  (* the schema of metadata is only that it is an object; all else is as it was *)
  pu_versions : Forall2 (fun v w =>
      w = set_vschema v (v_schema w) /\ v_schema w = set_props (v_schema v) (s_props (v_schema w)) /\ map fst (s_props (v_schema w)) = map fst (s_props (v_schema v)) /\
      forall k, mget String.eqb (s_props (v_schema w)) k = match mget String.eqb (s_props (v_schema v)) k with Some s => Some (if String.eqb k "metadata" then set_type schema0 "object" else s) | None => None end)
    (c_versions c) (c_versions x) }.
(** The file of version number [i] of a CRD *)
Definition named (group plural : string) (i : nat) (ver f : string) : Prop :=
  (i = 0 /\ f = (group ++ "_" ++ plural ++ ".yaml")%string) \/ (i <> 0 /\ f = (group ++ "_" ++ plural ++ "." ++ ver ++ ".yaml")%string).
(** The kinds: types that embed both TypeMeta and ObjectMeta *)
Definition kube_kind (group_versions : list (string * (string * string))) (embedded : list ((string * string) * list string)) (group kind : string) : Prop :=
  exists p es, In ((p, kind), es) embedded /\ In "ObjectMeta" es /\ In "TypeMeta" es /\
    ((exists n, mget String.eqb group_versions p = Some (group, n)) \/ (mget String.eqb group_versions p = None /\ group = "")).
