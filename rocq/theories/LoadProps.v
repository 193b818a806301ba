(** * Sharing the root packages: the theorems (C32) *)

From Coq Require Import String List Bool Arith Permutation Lia.
Import ListNotations.
From Verif Require Import GoLib MapFacts LoadModel LoadSpec LoadProofs.
Open Scope string_scope.
Open Scope nat_scope.
Open Scope list_scope.

Section Claims.
Variable id : obj -> string.
Variable choose : nat -> list string -> list string.
Variable roots : list obj.

(** The loop over the roots ends, whatever the imports (even with cycles), if there
    are finitely many import paths. *)
Theorem visit_returns h c paths : (forall o k x, imports h o k x -> In k paths) ->
  exists n h' c', forall m, n <= m -> visit_all id choose roots m roots h c = Some (h', c').
Proof.
  intros H. apply (visit_all_ends id choose roots paths). intros x k Hk. apply in_key in Hk. destruct Hk as (y & Hy). now apply (H x k y).
Qed.

(** An import is what it was, or the root it names; no import is added or dropped. *)
Theorem visit_sound_all n h c h' c' : visit_all id choose roots n roots h c = Some (h', c') ->
  (forall o k x, imports h' o k x -> imports h o k x \/ (In x roots /\ id x = k)) /\
  (forall o, map fst (h' o) = map fst (h o)).
Proof.
  intros H. assert (S : sound id roots h h').
  { apply (visit_all_sound id choose roots h n roots h c h' c'); [split; [easy|now left]|easy]. }
  split; [apply S|apply S].
Qed.

(** If each root was loaded by a call of its own, imports that name a root are that
    root, for all packages reached, in every order of iteration. *)
Theorem roots_shared n h c h' c' load tgt : some_order choose ->
  NoDup (map id roots) -> loaded h load tgt -> NoDup (map load roots) ->
  visit_all id choose roots n roots h c = Some (h', c') -> shared id h' roots.
Proof. intros Ho Hid Hl N H. now apply (all_shared id choose Ho roots Hid h load tgt Hl n c h' c'). Qed.

(** The same if all roots were loaded by one call, in which a path names the package
    with that ID. *)
Theorem roots_shared_one_load n h c h' c' load tgt l :
  loaded h load tgt -> (forall r, In r roots -> load r = l /\ tgt l (id r) = r) ->
  visit_all id choose roots n roots h c = Some (h', c') -> shared id h' roots.
Proof.
  intros Hl Hr H. destruct (visit_sound_all n h c h' c' H) as (S & K).
  assert (L : forall x, reached h' roots x -> load x = l).
  { intros x Hx. induction Hx as [r Hx|o k x Ho IH Hi]; [now apply Hr|].
    destruct (S o k x Hi) as [Hi0|(Hx & _)]; [|now apply Hr]. destruct (Hl o k x Hi0) as (_ & E). congruence. }
  intros o k x r Ho Hi Hin E. destruct (S o k x Hi) as [Hi0|(Hx & Ex)].
  - destruct (Hl o k x Hi0) as (-> & _). rewrite (L o Ho), <- E. now apply Hr.
  - rewrite <- (proj2 (Hr r Hin)), <- (proj2 (Hr x Hx)). congruence.
Qed.
End Claims.
Print Assumptions visit_returns.
Print Assumptions visit_sound_all.
Print Assumptions roots_shared.
Print Assumptions roots_shared_one_load.

(** ** Cases *)

(** Package n of load l is [10 * l + n].  Packages: 0 r1, 1 r2, 2 q, 3 u, 4 x, 5 s, 6 z, 7 v;
    both loads have all of them, with the same imports. *)
Definition ex_name (o : obj) : string :=
  nth (o mod 10) ["r1"; "r2"; "q"; "u"; "x"; "s"; "z"; "v"] "-".
Definition ex_edges (p : nat) : list nat :=
  match p with
  | 0 => [4]           (* r1 imports x *)
  | 1 => [7; 4]        (* r2 imports v and x *)
  | 2 => [7]           (* q imports v *)
  | 4 => [5]           (* x imports s *)
  | 5 => [6; 7]        (* s imports z and v *)
  | 6 => [2]           (* z imports q *)
  | 7 => [3]           (* v imports u *)
  | _ => []
  end.
Definition ex_heap : heap := fun o =>
  if Nat.ltb o 20 then map (fun q => (ex_name q, 10 * (o / 10) + q)) (ex_edges (o mod 10)) else [].
Definition ex_load (o : obj) : nat := o / 10.
Definition ex_tgt (l : nat) (k : string) : obj :=
  10 * l + (if String.eqb k "q" then 2 else if String.eqb k "u" then 3 else if String.eqb k "x" then 4
            else if String.eqb k "s" then 5 else if String.eqb k "z" then 6 else 7).

Lemma ex_loaded : loaded ex_heap ex_load ex_tgt.
Proof.
  intros o k x H. unfold imports in H. apply (mget_in _ _ _ String.eqb_eq) in H.
  assert (Ho : In o (seq 0 20)).
  { unfold ex_heap in H. destruct (Nat.ltb_spec o 20) as [Ho|Ho]; [|destruct H]. apply in_seq. lia. }
  assert (A : forallb (fun o => forallb (fun kx => Nat.eqb (snd kx) (ex_tgt (ex_load o) (fst kx)) &&
    Nat.eqb (ex_load (snd kx)) (ex_load o)) (ex_heap o)) (seq 0 20) = true) by (vm_compute; reflexivity).
  rewrite forallb_forall in A. specialize (A o Ho). rewrite forallb_forall in A. specialize (A (k, x) H).
  apply andb_true_iff in A. destruct A as (A1 & A2). apply Nat.eqb_eq in A1, A2. easy.
Qed.

(** The imports looked up afterwards. *)
Definition ex_after (choose : nat -> list string -> list string) (roots : list obj) (l : list (obj * string)) : option (list (option obj)) :=
  match visit_all ex_name choose roots 10 roots ex_heap 0 with
  | Some (h', _) => Some (map (fun ok => mget String.eqb (h' (fst ok)) (snd ok)) l)
  | None => None
  end.

(** Two roots, each of its own load: r1 of the first, s of the second. *)
Example ex_two : exists h' c', visit_all ex_name (fun _ l => l) [0; 15] 10 [0; 15] ex_heap 0 = Some (h', c') /\
  shared ex_name h' [0; 15] /\ imports ex_heap 4 "s" 5 /\ imports h' 4 "s" 15.
Proof.
  assert (X : ex_after (fun _ l => l) [0; 15] [(4, "s")] = Some [Some 15]) by (vm_compute; reflexivity).
  unfold ex_after in X. destruct (visit_all _ _ _ _ _ _ _) as [(h', c')|] eqn:E; [|discriminate X].
  cbn [map fst snd] in X.
  exists h', c'. split; [reflexivity|]. split; [|split; [reflexivity|now injection X]].
  apply (roots_shared ex_name (fun _ l => l) [0; 15] 10 ex_heap 0 h' c' ex_load ex_tgt); [|..|exact E].
  - intros c l. apply Permutation_refl.
  - repeat constructor; cbn; intuition discriminate.
  - exact ex_loaded.
  - repeat constructor; cbn; intuition discriminate.
Qed.

(** With several roots in one of several loads an import may be missed, although both
    loads agree on the imports of every package: r1, r2, q and u are roots of the first
    load and s is a root of the second; the package v that s imports keeps its own u.
    Visiting r2 redirects z of the second load to q of the first; visiting s by way of
    z and that q then marks v as seen, in the first load. *)
Theorem roots_shared_refuted :
  exists h' c', visit_all ex_name (fun _ l => l) [0; 1; 2; 3; 15] 10 [0; 1; 2; 3; 15] ex_heap 0 = Some (h', c') /\
    loaded ex_heap ex_load ex_tgt /\ NoDup (map ex_name [0; 1; 2; 3; 15]) /\
    imports h' 15 "v" 17 /\ imports h' 17 "u" 13 /\ ~ shared ex_name h' [0; 1; 2; 3; 15].
Proof.
  assert (X : ex_after (fun _ l => l) [0; 1; 2; 3; 15] [(15, "v"); (17, "u")] = Some [Some 17; Some 13]) by (vm_compute; reflexivity).
  unfold ex_after in X. destruct (visit_all _ _ _ _ _ _ _) as [(h', c')|] eqn:E; [|discriminate X].
  cbn [map fst snd] in X.
  injection X as X1 X2.
  exists h', c'. split; [reflexivity|]. split; [exact ex_loaded|]. split.
  - repeat constructor; cbn; intuition discriminate.
  - split; [exact X1|]. split; [exact X2|]. intros Hs.
    assert (Y : 13 = 3); [|discriminate Y]. apply (Hs 17 "u"); [|exact X2|cbn; tauto|reflexivity].
    apply (reached_import _ _ 15 "v"); [|exact X1]. apply reached_root. cbn. tauto.
Qed.
Print Assumptions roots_shared_refuted.

(** The other order of iteration does not miss it: what is shared depends on it. *)
Theorem roots_shared_order_refuted :
  exists h' c', visit_all ex_name (fun _ l => rev l) [0; 1; 2; 3; 15] 10 [0; 1; 2; 3; 15] ex_heap 0 = Some (h', c') /\
    imports h' 15 "v" 17 /\ imports h' 17 "u" 3.
Proof.
  assert (X : ex_after (fun _ l => rev l) [0; 1; 2; 3; 15] [(15, "v"); (17, "u")] = Some [Some 17; Some 3]) by (vm_compute; reflexivity).
  unfold ex_after in X. destruct (visit_all _ _ _ _ _ _ _) as [(h', c')|] eqn:E; [|discriminate X].
  cbn [map fst snd] in X.
  exists h', c'. split; [reflexivity|]. injection X as X1 X2. split; assumption.
Qed.
Print Assumptions roots_shared_order_refuted.
