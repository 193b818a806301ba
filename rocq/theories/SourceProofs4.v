(** * Proofs for C59: fields and types; nothing is lost. *)

From Coq Require Import List String Ascii Bool Arith QArith Lia Permutation.
From Verif Require Import GoLib GoLibFacts MapFacts SchemaModel DocModel RegistryModel CollectModel CollectSpec CollectProofs CollectFile CollectProps.
From Verif Require Import TablesModel TablesSpec TablesProofs TablesProofs2 TablesProofs3 TablesProofs4 SourceModel SourceSpec SourceProofs SourceProofs2.
Import ListNotations.
Open Scope string_scope.
Open Scope list_scope.

Section Nodes.
Variable fval : string -> option Q.
Variable json_read : string -> option json.
Variable gs : list generator.
Notation reg := (registry_of gs).
Notation read := (parse_value fval json_read).
Notation values_at t ms := (values payload reg tvalue read t ms [] []).
Notation vals_of := (values_of payload tvalue reg read).
Variable order : file -> list (nat * list marker) -> list (nat * list marker).
Hypothesis order_perm : forall f l, Permutation (order f l) l.
Notation file_vals := (file_values fval json_read gs order).

Lemma find_mget {V} (l : list (nat * V)) id : find (fun nv => Nat.eqb (fst nv) id) l = match mget Nat.eqb l id with Some v => Some (id, v) | None => None end.
Proof. induction l as [|[k v] l IH]; [reflexivity|]. cbn. rewrite (Nat.eqb_sym id k). destruct (Nat.eqb_spec k id) as [->|]; [reflexivity|exact IH]. Qed.
Lemma find_app {X} (t : X -> bool) l l' : find t (l ++ l') = match find t l with Some x => Some x | None => find t l' end.
Proof. induction l as [|x l IH]; [reflexivity|]. cbn. destruct (t x); [reflexivity|exact IH]. Qed.
Lemma file_keys f id v : parsed_file f -> mget Nat.eqb (file_vals f) id = Some v -> In id (entered (events f)).
Proof.
  intros (Rf & W) H. rewrite node_get in H. destruct (mget Nat.eqb (nodes_of gs order f) id) as [l|] eqn:G; [|discriminate].
  destruct (only_these payload reg (order f) (order_perm f) (f_groups f) (f_root f) (f_children f) Rf W _ (nodes_some gs order order_perm f (conj Rf W)) id l G) as [->|(top & h & I & <- & _)].
  - unfold entered. apply in_flat_map. exists (Enter true (f_root f)). split; now left.
  - unfold entered. apply in_flat_map. exists (Enter top h). split; [exact I|now left].
Qed.
Lemma find_file p f id v : Forall parsed_file p -> distinct_nodes p -> In f p -> mget Nat.eqb (file_vals f) id = Some v ->
  find (fun nv => Nat.eqb (fst nv) id) (List.concat (map file_vals p)) = Some (id, v).
Proof.
  unfold distinct_nodes. induction 1 as [|f0 p P F IH]; intros D I G; [destruct I|]. cbn [map List.concat]. rewrite find_app, find_mget. cbn [flat_map] in D.
  destruct I as [->|I]; [rewrite G; reflexivity|]. destruct (mget Nat.eqb (file_vals f0) id) as [v0|] eqn:G0.
  - exfalso. rewrite Forall_forall in F. assert (K := file_keys f id v (F f I) G). assert (K0 := file_keys f0 id v0 P G0).
    assert (K' : In id (flat_map (fun f => entered (events f)) p)) by (apply in_flat_map; now exists f). revert D K0 K'. generalize (entered (events f0)) (flat_map (fun f => entered (events f)) p).
    intros l l' D K0 K'. induction l as [|x l IHl]; [destruct K0|]. cbn in D. inversion D as [|? ? Nx D']; subst. destruct K0 as [->|K0]; [apply Nx, in_or_app; now right|now apply IHl].
  - apply IH; [|exact I|exact G]. clear - D. induction (entered (events f0)) as [|x l IHl]; [exact D|]. cbn in D. inversion D; auto.
Qed.
Lemma node_set_eq p f id l m : Forall parsed_file p -> distinct_nodes p -> In f p -> node_set fval json_read gs order p id = Some (inl m) ->
  mget Nat.eqb (nodes_of gs order f) id = Some l -> m = fst (values_at (target_of (events f) id) l).
Proof.
  intros F D I H G. unfold node_set in H. rewrite (all_values_eq fval json_read gs order order_perm p F) in H. destruct (flat_map _ p); [|discriminate].
  rewrite (find_file p f id (fst (values_at (target_of (events f) id) l)) F D I) in H; [now injection H as <-|]. rewrite node_get, G. reflexivity.
Qed.

Lemma own_comment f h c d : In (mkMarker c d) (own (f_groups f) (events f) h) -> is_marker_comment (c_text c) = true /\ node_comment f h c.
Proof.
  unfold own. intros H. apply in_app_or in H. destruct H as [H|H]; apply in_written in H; destruct H as (_ & M & g & Hg & Hc); (split; [exact M|]); exists g; auto.
Qed.
Lemma comment_own f h c : is_marker_comment (c_text c) = true -> node_comment f h c -> exists d, In (mkMarker c d) (own (f_groups f) (events f) h).
Proof.
  intros M (g & Hc & [Hg|Hg]); [exists false|exists true]; unfold own; apply in_or_app; [left|right]; apply in_written; (split; [reflexivity|]); (split; [exact M|]); now exists g.
Qed.

Lemma field_values p f top h m n : Forall parsed_file p -> distinct_nodes p -> In f p -> In (Enter top h) (events f) -> h_kind h = KField ->
  node_set fval json_read gs order p (h_id h) = Some (inl m) -> m = fst (values_at DescribesField (own (f_groups f) (events f) h)) /\ of_name m n = flat_map (vals_of DescribesField n) (own (f_groups f) (events f) h).
Proof.
  intros F D I Ih K H. assert (P := proj1 (Forall_forall _ _) F f I). destruct P as (Rf & W).
  assert (G := field_markers payload reg (order f) (order_perm f) (f_groups f) (f_root f) (f_children f) Rf W _ (nodes_some gs order order_perm f (conj Rf W)) top h Ih K).
  assert (E := node_set_eq p f _ _ m F D I H G). rewrite (target_entered f top h (conj Rf W) Ih), K in E. split; [exact E|]. rewrite E. apply (proj1 (values_in_order payload tvalue reg read DescribesField _ n)).
Qed.
Lemma type_values p f before top h after m n : Forall parsed_file p -> distinct_nodes p -> In f p -> events f = before ++ Enter top h :: after -> h_kind h = KType ->
  node_set fval json_read gs order p (h_id h) = Some (inl m) ->
  let ms := filter (fun m => negb (misplaced reg m)) (of_decl (f_groups f) (events f) (open_decl before) ++ own (f_groups f) (events f) h) in
  m = fst (values_at DescribesType ms) /\ of_name m n = flat_map (vals_of DescribesType n) ms.
Proof.
  intros F D I Ih K H ms. assert (P := proj1 (Forall_forall _ _) F f I). destruct P as (Rf & W).
  assert (G := type_markers payload reg (order f) (order_perm f) (f_groups f) (f_root f) (f_children f) Rf W _ (nodes_some gs order order_perm f (conj Rf W)) before top h after Ih K).
  assert (In (Enter top h) (events f)) as Ie by (rewrite Ih; apply in_or_app; right; now left).
  assert (E := node_set_eq p f _ _ m F D I H G). rewrite (target_entered f top h (conj Rf W) Ie), K in E. split; [exact E|]. rewrite E. apply (proj1 (values_in_order payload tvalue reg read DescribesType _ n)).
Qed.

(** ** A named marker: a value or an error *)
Lemma has_name_found k n text t : parameters k <> [] -> known gs k t n -> has_name n text -> exists d, lookup payload reg ("+" ++ text) t = Some d /\ d_name d = n /\ p_kind (d_payload d) = k.
Proof.
  intros Pe K H. apply known_definition in K as (d & I & <- & <- & <-). exists d. split; [|auto]. destruct H as [->|[(rest & ->)|(a & rest & -> & A1 & A2)]].
  - apply lookup_plain_name, I.
  - apply lookup_name, I.
  - replace (d_name d ++ ":" ++ a ++ "=" ++ rest)%string with ((d_name d ++ ":" ++ a) ++ "=" ++ rest)%string by now rewrite !str_app_assoc. apply lookup_part; auto.
    intros d' I'. apply in_definitions in I as (g & _ & I), I' as (g' & _ & I'). apply (struct_prefix g g' d d' a I I' Pe).
Qed.
Variable vorder : list (string * list tvalue) -> list (string * list tvalue).
Hypothesis vorder_perm : forall l, Permutation (vorder l) l.
Lemma root_error p f c d : Forall parsed_file p -> In f p -> In (mkMarker c d) (roots_of gs order f) -> In c (unparsed payload tvalue reg read DescribesPackage (mkMarker c d)) -> In c (package_errors fval json_read gs order p).
Proof.
  intros F I Im U. assert (P := proj1 (Forall_forall _ _) F f I). unfold package_errors. apply in_flat_map. exists f. split; [exact I|]. unfold file_errors. apply in_flat_map.
  unfold roots_of, root_list in Im. destruct (mget Nat.eqb (nodes_of gs order f) (h_id (f_root f))) as [l|] eqn:G; [|destruct Im]. exists (h_id (f_root f), l). split; [apply (mget_in _ _ _ Nat.eqb_eq), G|].
  unfold node_read. cbn [fst snd]. rewrite (proj2 (values_in_order payload tvalue reg read _ l "")). apply in_flat_map. exists (mkMarker c d). split; [exact Im|].
  rewrite (target_entered f true (f_root f) P (or_introl eq_refl)). destruct P as (-> & _). exact U.
Qed.
Lemma named_or_error p k n c text : Forall parsed_file p -> parameters k <> [] -> known gs k DescribesPackage n -> (forall k, ~ known gs k DescribesType n) ->
  package_comment p c -> comment_is c text -> has_name n text ->
  In c (package_errors fval json_read gs order p) \/ exists v, value_kind v = Some k /\ vals_of DescribesPackage n (mkMarker c false) = [v] /\ In v (of_name (package_result fval json_read gs order vorder p) n).
Proof.
  intros F Pe K N Pc C H. destruct (has_name_found k n text DescribesPackage Pe K H) as (d & L & En & Ek). assert (C' := proj1 (comment_is_iff c text) C). destruct C' as (Mk & Et).
  destruct (read d ("+" ++ text)) as [v|] eqn:R.
  - right. exists v. split; [rewrite <- Ek; apply (read_kind _ _ _ _ _ R)|]. assert (E : vals_of DescribesPackage n (mkMarker c false) = [v]) by (unfold values_of; rewrite Et, L, R, En, String.eqb_refl; reflexivity).
    split; [exact E|]. apply (package_value_iff fval json_read gs order vorder order_perm vorder_perm p n v F N). exists c, text. rewrite E. split; [exact Pc|]. split; [exact C|now left].
  - left. destruct Pc as (f & g & If & Ig & Ic & At). assert (P := proj1 (Forall_forall _ _) F f If).
    assert (Mi : misplaced reg (mkMarker c false) = true). { unfold misplaced, CollectSpec.known. rewrite Et, L, (package_only gs text d L); [reflexivity|]. rewrite En. exact N. }
    destruct (proj2 (root_iff payload reg (order f) (order_perm f) f P (nodes_of gs order f) (nodes_some gs order order_perm f P) c Mi)) as (b & Im); [split; [exact Mk|]; now exists g|].
    apply (root_error p f c b F If Im). unfold unparsed. rewrite (same_text c b false), Et, L, R. now left.
Qed.
End Nodes.
