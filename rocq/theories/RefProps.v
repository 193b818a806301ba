(** * C05: $ref links. *)

From Coq Require Import List String Ascii Bool.
From Verif Require Import GoLib RefModel RefProofs.
Import ListNotations.
Open Scope string_scope.

(** Splitting the link made for a type gives that type and package back, when neither contains '~'. *)
Theorem ref_round_trip : forall pkg typ,
  has_char "~" pkg = false -> has_char "~" typ = false ->
  ref_parts (type_ref_link pkg typ) = Some (typ, pkg).
Proof. exact ref_round_trip_proof. Qed.
Print Assumptions ref_round_trip.

Example ref_round_trip_case :
  has_char "~" "sigs.k8s.io/controller-tools/api/v1" = false /\ has_char "~" "CronJob" = false /\
  type_ref_link "sigs.k8s.io/controller-tools/api/v1" "CronJob" = "#/definitions/sigs.k8s.io~1controller-tools~1api~1v1~0CronJob".
Proof. vm_compute. auto. Qed.

(** Distinct types get distinct links. *)
Theorem ref_links_distinct : forall pkg typ pkg' typ',
  has_char "~" pkg = false -> has_char "~" typ = false -> has_char "~" pkg' = false -> has_char "~" typ' = false ->
  type_ref_link pkg typ = type_ref_link pkg' typ' -> pkg = pkg' /\ typ = typ'.
Proof. exact ref_link_inj_proof. Qed.
Print Assumptions ref_links_distinct.

(** Resolving the link against the importing package gives the imported package (nil if it is not imported), and the
    package itself for a local link. *)
Theorem ref_resolves : forall P (imports : list (string * P)) ctx pkg typ,
  has_char "~" pkg = false -> has_char "~" typ = false ->
  ident_from_ref P imports ctx (type_ref_link pkg typ) =
    Some (match pkg with "" => Some ctx | _ => mget String.eqb imports pkg end, typ).
Proof. exact ident_round_trip_proof. Qed.
Print Assumptions ref_resolves.

Example ref_resolves_case :
  ident_from_ref nat [("a/b", 1); ("c", 2)] 0 (type_ref_link "c" "T") = Some (Some 2, "T") /\
  ident_from_ref nat [("a/b", 1); ("c", 2)] 0 (type_ref_link "" "T") = Some (Some 0, "T").
Proof. vm_compute. auto. Qed.

(** '~' is a legal character of Go import paths (git.sr.ht/~user/repo), and there the round trip fails, and two
    packages may share a link. *)
Theorem ref_round_trip_unconditional_refuted :
  ~ (forall pkg typ, has_char "~" typ = false -> ref_parts (type_ref_link pkg typ) = Some (typ, pkg)).
Proof. intros H. specialize (H "git.sr.ht/~user/repo" "T" eq_refl). vm_compute in H. discriminate H. Qed.
Print Assumptions ref_round_trip_unconditional_refuted.

Theorem ref_links_distinct_unconditional_refuted :
  ~ (forall pkg typ pkg' typ', type_ref_link pkg typ = type_ref_link pkg' typ' -> pkg = pkg' /\ typ = typ').
Proof. intros H. specialize (H "a~1b" "T" "a/b" "T" eq_refl). destruct H as [H _]. discriminate H. Qed.
Print Assumptions ref_links_distinct_unconditional_refuted.
