(** * Reading the tokens and the texts of types, expressions and statements (for C67) *)
From Coq Require Import List String Ascii Bool Arith Lia.
From Verif Require Import GoLib DeepModel TextSpec TextModel CopiesModel.
Import ListNotations.
Open Scope string_scope.
Open Scope nat_scope.
Open Scope list_scope.

(** ** Scanning *)
Lemma scan_app a b x : scan (a ++ b) x = scan b (scan a x).
Proof. revert x. induction a as [|c a IH]; intros x; [reflexivity|exact (IH _)]. Qed.
Ltac chars c := destruct c as [[] [] [] [] [] [] [] []].
Lemma letter_fresh c e ts : is_letter c = true -> fresh c (mkL Idle e ts) = mkL (InWord (one c)) e ts.
Proof. chars c; vm_compute; intros H; first [discriminate H|reflexivity]. Qed.
Lemma letter_word c : is_letter c = true -> word_char c = true.
Proof. unfold word_char. intros ->. reflexivity. Qed.
Lemma scan_word s w e ts : all_chars word_char s = true -> scan s (mkL (InWord w) e ts) = mkL (InWord (w ++ s)) e ts.
Proof.
  revert w. induction s as [|c s IH]; intros w H; [cbn; f_equal; f_equal; clear; induction w as [|c w IH]; [reflexivity|cbn; now rewrite <- IH]|].
  cbn in H. apply andb_true_iff in H as (H1 & H2). cbn. unfold step. cbn [l_mode]. rewrite H1. cbn [l_ends l_toks]. rewrite IH by assumption. f_equal. f_equal. clear. induction w as [|d w IH]; [reflexivity|cbn; now rewrite IH].
Qed.

(** The lexer is between tokens, or after an asterisk or an ampersand. *)
Definition type_start (c : ascii) : bool := is_letter c || Ascii.eqb c "*"%char || Ascii.eqb c "["%char.
Definition settled (x : lexer) (e : bool) (ts : list tok) : Prop := forall c, type_start c = true -> step x c = fresh c (mkL Idle e ts).
Lemma settled_idle e ts : settled (mkL Idle e ts) e ts.
Proof. intros c _. reflexivity. Qed.
Lemma settled_star e ts : settled (mkL (After "*"%char) e ts) false (TOp "*" :: ts).
Proof. intros c. chars c; vm_compute; intros H; first [discriminate H|reflexivity]. Qed.

Lemma ident_inv s : identifier s = true -> exists c s', s = String c s' /\ is_letter c = true /\ all_chars word_char s' = true /\ is_keyword s = false.
Proof.
  destruct s as [|c s']; [discriminate|]. unfold identifier. intros H. apply andb_true_iff in H as (H & K). apply andb_true_iff in H as (H1 & H2). apply negb_true_iff in K. eauto 6.
Qed.
Lemma ident_scan s x e ts : identifier s = true -> settled x e ts -> scan s x = mkL (InWord s) e ts.
Proof.
  intros H S. apply ident_inv in H as (c & s' & -> & L & W & _). cbn [scan]. rewrite S by (unfold type_start; now rewrite L). rewrite letter_fresh by assumption. rewrite scan_word by assumption. reflexivity.
Qed.
Lemma ident_ends s : identifier s = true -> ends_line (TId s) = true.
Proof. intros H. apply ident_inv in H as (c & s' & _ & _ & _ & K). cbn [ends_line]. now rewrite K. Qed.
Lemma word_done s e ts c r : identifier s = true -> word_char c = false -> scan (String c r) (mkL (InWord s) e ts) = scan (String c r) (mkL Idle true (TId s :: ts)).
Proof.
  intros I W. cbn [scan]. unfold step. cbn [l_mode]. rewrite W. unfold emit. rewrite (ident_ends s I). reflexivity.
Qed.

Section Names.
  Variable qualifier : string -> option string.
  Variable bare : string -> string.
  Variable string_of : ty -> string.
  Hypothesis bare_ident : forall n, identifier (bare n) = true.
  Hypothesis qual_ident : forall n a, qualifier n = Some a -> identifier a = true.
  Notation ty_text := (syntax_text qualifier bare string_of).
  Notation ty_tree := (ty_tree qualifier bare).

  Fixpoint ty_toks (t : ty) : list tok :=
    match t with
    | TBasic _ s => if String.eqb s "unsafe.Pointer" then [TId "unsafe"; TOp "."; TId "Pointer"] else [TId s]
    | TNamed n => match qualifier n with Some a => [TId a; TOp "."; TId (bare n)] | None => [TId (bare n)] end
    | TPtr e => TOp "*" :: ty_toks e
    | TSlice e => TOp "[" :: TOp "]" :: ty_toks e
    | TMap k e => TId "map" :: TOp "[" :: ty_toks k ++ TOp "]" :: ty_toks e
    | TStruct _ | TOther _ => []
    end.

  Lemma ty_scan t : nameable t -> forall x e ts c r, settled x e ts -> word_char c = false ->
    scan (ty_text t ++ String c r) x = scan (String c r) (mkL Idle true (rev (ty_toks t) ++ ts)).
  Proof.
    induction t as [b s|n|t IH|t IH|k IHk t IH|fs|s]; intros N x e ts c r S W; cbn [nameable] in N.
    - cbn [syntax_text ty_toks]. destruct (String.eqb s "unsafe.Pointer") eqn:E.
      + apply String.eqb_eq in E. subst s. rewrite scan_app. change "unsafe.Pointer"%string with ("unsafe" ++ ("." ++ "Pointer"))%string. rewrite scan_app.
        rewrite (ident_scan "unsafe" x e ts eq_refl S). change ("." ++ "Pointer")%string with (String "." "Pointer"). rewrite word_done by reflexivity. cbn -[scan]. change (String "." "Pointer") with ("." ++ "Pointer")%string. rewrite scan_app.
        change (scan "." (mkL Idle true (TId "unsafe" :: ts))) with (mkL Idle false (TOp "." :: TId "unsafe" :: ts)).
        rewrite (ident_scan "Pointer" _ _ _ eq_refl (settled_idle false _)). rewrite word_done by (try reflexivity; assumption). reflexivity.
      + destruct N as [N|N]; [|subst s; discriminate E]. rewrite scan_app, (ident_scan s x e ts N S). rewrite word_done by assumption. reflexivity.
    - cbn [syntax_text ty_toks]. destruct (qualifier n) as [a|] eqn:Q.
      + assert (Ia := qual_ident n a Q). rewrite scan_app. rewrite scan_app. rewrite (ident_scan a x e ts Ia S). change ("." ++ bare n)%string with (String "." (bare n)). rewrite word_done by (try reflexivity; assumption).
        change (String "." (bare n)) with ("." ++ bare n)%string. rewrite scan_app. change (scan "." (mkL Idle true (TId a :: ts))) with (mkL Idle false (TOp "." :: TId a :: ts)).
        rewrite (ident_scan (bare n) _ _ _ (bare_ident n) (settled_idle false _)). rewrite word_done by (try apply bare_ident; assumption). reflexivity.
      + rewrite scan_app, (ident_scan _ x e ts (bare_ident n) S). rewrite word_done by (try apply bare_ident; assumption). reflexivity.
    - cbn [syntax_text ty_toks rev]. change (("*" ++ ty_text t) ++ String c r)%string with (String "*" (ty_text t ++ String c r)). cbn [scan]. rewrite S by reflexivity.
      change (fresh "*"%char (mkL Idle e ts)) with (mkL (After "*"%char) e ts). rewrite (IH N _ _ _ c r (settled_star e ts) W). rewrite <- app_assoc. reflexivity.
    - cbn [syntax_text ty_toks rev]. change (("[]" ++ ty_text t) ++ String c r)%string with (String "[" (String "]" (ty_text t ++ String c r))). cbn [scan]. rewrite S by reflexivity.
      change (step (fresh "["%char (mkL Idle e ts)) "]"%char) with (mkL Idle true (TOp "]" :: TOp "[" :: ts)). rewrite (IH N _ _ _ c r (settled_idle _ _) W). rewrite <- !app_assoc. reflexivity.
    - destruct N as (Nk & Ne). cbn [syntax_text ty_toks rev]. 
      assert (E : (("map[" ++ ty_text k ++ "]" ++ ty_text t) ++ String c r = String "m" (String "a" (String "p" (String "[" (ty_text k ++ String "]" (ty_text t ++ String c r))))))%string).
      { cbn. do 4 f_equal. generalize (ty_text k). intros u. induction u as [|d u IHu]; [reflexivity|cbn; now rewrite IHu]. }
      rewrite E. cbn [scan]. rewrite S by reflexivity. rewrite letter_fresh by reflexivity.
      change (step (step (step (mkL (InWord (one "m"%char)) e ts) "a"%char) "p"%char) "["%char) with (mkL Idle false (TOp "[" :: TId "map" :: ts)).
      rewrite (IHk Nk _ _ _ "]"%char _ (settled_idle _ _) eq_refl). cbn [scan]. 
      change (step (mkL Idle true (rev (ty_toks k) ++ TOp "[" :: TId "map" :: ts)) "]"%char) with (mkL Idle true (TOp "]" :: rev (ty_toks k) ++ TOp "[" :: TId "map" :: ts)).
      rewrite (IH Ne _ _ _ c r (settled_idle _ _) W). rewrite !rev_app_distr. cbn [rev]. rewrite <- !app_assoc. cbn [app]. reflexivity.
    - destruct N.
    - destruct N.
  Qed.

  (** ** Parsing types *)
  Definition no_dot (ts : list tok) : Prop := match ts with TOp o :: _ => String.eqb o "." = false | _ => True end.
  Definition stop (ts : list tok) : Prop := match ts with TOp o :: _ => String.eqb o "." = false /\ String.eqb o "[" = false /\ String.eqb o "(" = false | _ => True end.
  Definition is_type (T : list tok) (e : gexpr) : Prop := exists k, forall n rest, k <= n -> no_dot rest -> p_type n (T ++ rest) = Some (e, rest).
  Definition is_expr (T : list tok) (e : gexpr) : Prop := exists k, forall n rest, k <= n -> stop rest -> p_unary n (T ++ rest) = Some (e, rest).
  Lemma stop_no_dot ts : stop ts -> no_dot ts.
  Proof. destruct ts as [|[]]; cbn; tauto. Qed.
  Lemma more_stop n e rest : stop rest -> p_more (S n) e rest = Some (e, rest).
  Proof. destruct rest as [|[s|s|s|] rest]; try reflexivity. cbn. intros (-> & -> & ->). reflexivity. Qed.
  Lemma not_map s : is_keyword s = false -> String.eqb s "map" = false.
  Proof. intros H. destruct (String.eqb s "map") eqn:E; [|reflexivity]. apply String.eqb_eq in E. subst s. discriminate H. Qed.
  Lemma type_id s : is_keyword s = false -> is_type [TId s] (XId s).
  Proof.
    intros K. exists 1. intros [|n] rest Hn Hr; [lia|]. cbn [app p_type]. rewrite (not_map s K), K. destruct rest as [|[] rest]; try reflexivity. destruct rest as [|[] rest]; try reflexivity. cbn in Hr. now rewrite Hr.
  Qed.
  Lemma type_sel a s : is_keyword a = false -> is_keyword s = false -> is_type [TId a; TOp "."; TId s] (XSel (XId a) s).
  Proof. intros Ka K. exists 1. intros [|n] rest Hn Hr; [lia|]. cbn [app p_type]. rewrite (not_map a Ka), Ka. cbn -[is_keyword]. now rewrite K. Qed.
  Lemma ident_key s : identifier s = true -> is_keyword s = false.
  Proof. intros H. apply ident_inv in H as (_ & _ & _ & _ & _ & K). exact K. Qed.
  Lemma ty_type t : nameable t -> is_type (ty_toks t) (ty_tree t).
  Proof.
    induction t as [b s|n|t IH|t IH|k IHk t IH|fs|s]; intros N; cbn [nameable] in N; cbn [ty_toks TextSpec.ty_tree].
    - destruct (String.eqb s "unsafe.Pointer") eqn:E; [apply type_sel; reflexivity|]. destruct N as [N|N]; [|subst s; discriminate E]. apply type_id, ident_key, N.
    - destruct (qualifier n) as [a|] eqn:Q; [apply type_sel; apply ident_key; [exact (qual_ident n a Q)|apply bare_ident]|apply type_id, ident_key, bare_ident].
    - destruct (IH N) as (k & H). exists (S k). intros [|n] rest Hn Hr; [lia|]. cbn. rewrite H by (assumption || lia). reflexivity.
    - destruct (IH N) as (k & H). exists (S k). intros [|n] rest Hn Hr; [lia|]. cbn. rewrite H by (assumption || lia). reflexivity.
    - destruct N as (Nk & Ne). destruct (IHk Nk) as (k1 & H1), (IH Ne) as (k2 & H2). exists (S (k1 + k2)). intros [|n] rest Hn Hr; [lia|]. cbn [app p_type]. cbn [String.eqb Ascii.eqb Bool.eqb expect andthen]. rewrite <- app_assoc. cbn [app].
      rewrite H1 by (reflexivity || lia). cbn [andthen expect String.eqb Ascii.eqb Bool.eqb]. rewrite H2 by (assumption || lia). reflexivity.
    - destruct N.
    - destruct N.
  Qed.
  Lemma ty_expr t : nameable t -> is_expr (ty_toks t) (ty_tree t).
  Proof.
    induction t as [b s|n|t IH|t IH|k IHk t IH|fs|s]; intros N; cbn [nameable] in N.
    - cbn [ty_toks TextSpec.ty_tree]. destruct (String.eqb s "unsafe.Pointer") eqn:E.
      + exists 3. intros [|[|[|n]]] rest Hn Hr; try lia. cbn -[is_keyword p_more]. change (is_keyword "unsafe") with false. cbn -[is_keyword]. change (is_keyword "Pointer") with false. cbv iota. apply more_stop, Hr.
      + destruct N as [N|N]; [|subst s; discriminate E]. apply ident_key in N. exists 2. intros [|[|n]] rest Hn Hr; try lia. cbn [app p_unary]. rewrite (not_map s N), N. apply more_stop, Hr.
    - cbn [ty_toks TextSpec.ty_tree]. destruct (qualifier n) as [a|] eqn:Q.
      + assert (Ka := ident_key a (qual_ident n a Q)). assert (K := ident_key _ (bare_ident n)). exists 3. intros [|[|[|m]]] rest Hn Hr; try lia. cbn [app p_unary]. rewrite (not_map a Ka), Ka. cbn -[is_keyword]. rewrite K. apply more_stop, Hr.
      + assert (K := ident_key _ (bare_ident n)). exists 2. intros [|[|m]] rest Hn Hr; try lia. cbn [app p_unary]. rewrite (not_map _ K), K. apply more_stop, Hr.
    - destruct (IH N) as (k & H). exists (S k). intros [|n] rest Hn Hr; [lia|]. cbn. rewrite H by (assumption || lia). reflexivity.
    - destruct (ty_type (TSlice t) N) as (k & H). exists (S (S k)). intros [|n] rest Hn Hr; [lia|]. cbn [ty_toks app p_unary]. cbn [String.eqb Ascii.eqb Bool.eqb].
      specialize (H n rest ltac:(lia) (stop_no_dot _ Hr)). cbn [ty_toks app] in H. rewrite H. cbn [andthen]. destruct n; [lia|]. apply more_stop, Hr.
    - destruct (ty_type (TMap k t) N) as (k' & H). exists (S (S k')). intros [|n] rest Hn Hr; [lia|]. cbn [ty_toks app p_unary]. cbn [String.eqb Ascii.eqb Bool.eqb].
      specialize (H n rest ltac:(lia) (stop_no_dot _ Hr)). cbn [ty_toks app] in H. rewrite H. cbn [andthen]. destruct n; [lia|]. apply more_stop, Hr.
    - destruct N.
    - destruct N.
  Qed.
End Names.

(** ** Expressions *)
Lemma e_id x : is_keyword x = false -> is_expr [TId x] (XId x).
Proof. intros K. exists 2. intros [|[|m]] rest Hn Hr; try lia. cbn [app p_unary]. rewrite (not_map _ K), K. apply more_stop, Hr. Qed.
Lemma e_star T e : is_expr T e -> is_expr (TOp "*" :: T) (XStar e).
Proof. intros (k & H). exists (S k). intros [|n] rest Hn Hr; [lia|]. cbn. rewrite H by (assumption || lia). reflexivity. Qed.
Lemma e_addr T e : is_expr T e -> is_expr (TOp "&" :: T) (XAddr e).
Proof. intros (k & H). exists (S k). intros [|n] rest Hn Hr; [lia|]. cbn. rewrite H by (assumption || lia). reflexivity. Qed.
(** Operands, to which selectors, indices and calls apply *)
Definition is_operand (T : list tok) (e : gexpr) : Prop := exists d k, forall n rest, k <= n -> p_unary (d + n) (T ++ rest) = p_more n e rest.
Definition are_args (T : list tok) (l : list gexpr) : Prop := exists k, forall n rest, k <= n -> p_args n (T ++ TOp ")" :: rest) = Some (l, rest).
Lemma o_expr T e : is_operand T e -> is_expr T e.
Proof. intros (d & k & H). exists (d + k + 1). intros n rest Hn Hr. replace n with (d + S (n - d - 1)) by lia. rewrite H by lia. apply more_stop, Hr. Qed.
Lemma o_id x : is_keyword x = false -> is_operand [TId x] (XId x).
Proof. intros K. exists 1, 0. intros n rest _. cbn [app plus p_unary]. now rewrite (not_map _ K), K. Qed.
Lemma o_paren T e : is_expr T e -> is_operand (TOp "(" :: T ++ [TOp ")"]) e.
Proof.
  intros (k & H). exists 1, k. intros n rest Hn. cbn [app plus p_unary]. cbn [String.eqb Ascii.eqb Bool.eqb]. rewrite <- app_assoc. cbn [app].
  rewrite H by (try lia; repeat split). reflexivity.
Qed.
Lemma o_sel T e f : is_operand T e -> is_keyword f = false -> is_operand (T ++ [TOp "."; TId f]) (XSel e f).
Proof. intros (d & k & H) K. exists (d + 1), k. intros n rest Hn. rewrite <- app_assoc, <- Nat.add_assoc. rewrite H by lia. cbn [app plus p_more String.eqb Ascii.eqb Bool.eqb]. now rewrite K. Qed.
Lemma o_idx T e Ti i : is_operand T e -> is_expr Ti i -> is_operand (T ++ TOp "[" :: Ti ++ [TOp "]"]) (XIdx e i).
Proof.
  intros (d & k & H) (k' & Hi). exists (d + 1), (k + k'). intros n rest Hn. rewrite <- app_assoc, <- Nat.add_assoc. rewrite H by lia. cbn [app plus p_more String.eqb Ascii.eqb Bool.eqb].
  rewrite <- app_assoc. cbn [app]. rewrite Hi by (try lia; repeat split). reflexivity.
Qed.
Lemma o_call T e Ta l : is_operand T e -> are_args Ta l -> is_operand (T ++ TOp "(" :: Ta ++ [TOp ")"]) (XCall e l).
Proof.
  intros (d & k & H) (k' & Ha). exists (d + 1), (k + k'). intros n rest Hn. rewrite <- app_assoc, <- Nat.add_assoc. rewrite H by lia. cbn [app plus p_more String.eqb Ascii.eqb Bool.eqb].
  rewrite <- app_assoc. cbn [app]. rewrite Ha by lia. reflexivity.
Qed.
Lemma a_nil : are_args [] [].
Proof. exists 1. intros [|n] rest Hn; [lia|reflexivity]. Qed.
Lemma not_close n T rest e (r : list tok) (l : list gexpr) : p_unary n (T ++ rest) = Some (e, r) -> expect ")" l (T ++ rest) = None.
Proof.
  destruct n as [|n]; [discriminate|]. destruct (T ++ rest) as [|[x|x|o|] ts]; try reflexivity. cbn. destruct (String.eqb o ")") eqn:E; [|reflexivity]. apply String.eqb_eq in E. subst o. discriminate.
Qed.
Lemma a_one T e : is_expr T e -> are_args T [e].
Proof.
  intros (k & H). exists (S k). intros [|n] rest Hn; [lia|]. assert (X := H n (TOp ")" :: rest) ltac:(lia) ltac:(repeat split)). cbn [p_args]. rewrite (not_close _ _ _ _ _ _ X), X. reflexivity.
Qed.
Lemma a_two T e T' e' : is_expr T e -> is_expr T' e' -> are_args (T ++ TOp "," :: T') [e; e'].
Proof.
  intros (k & H) H'. destruct (a_one T' e' H') as (k' & A). exists (S (k + k')). intros [|n] rest Hn; [lia|]. rewrite <- app_assoc. cbn [app]. assert (X := H n (TOp "," :: T' ++ TOp ")" :: rest) ltac:(lia) ltac:(repeat split)).
  cbn [p_args]. rewrite (not_close _ _ _ _ _ _ X), X. cbn [andthen expect String.eqb Ascii.eqb Bool.eqb]. rewrite A by lia. reflexivity.
Qed.

(** ** Statements *)
(** What comes after an expression at the end of a statement or before a block *)
Definition ended (ts : list tok) : Prop := match ts with TSemi :: _ => True | TOp o :: _ => o = "{" \/ o = "=" \/ o = ":=" \/ o = "," \/ o = "}" | _ => False end.
Lemma ended_stop ts : ended ts -> stop ts.
Proof. destruct ts as [|[s|s|s|] ts]; cbn; try tauto. intros [->|[->|[->|[->| ->]]]]; repeat split. Qed.
Definition whole (T : list tok) (e : gexpr) : Prop := exists k, forall n rest, k <= n -> ended rest -> p_expr n (T ++ rest) = Some (e, rest).
Lemma w_expr T e : is_expr T e -> whole T e.
Proof.
  intros (k & H). exists k. intros n rest Hn Hr. unfold p_expr. rewrite H by (auto using ended_stop). cbn [andthen]. destruct rest as [|[s|s|s|] ts]; cbn in Hr; try contradiction Hr; try reflexivity.
  destruct Hr as [->|[->|[->|[->| ->]]]]; reflexivity.
Qed.
(** The next token is a semicolon or one of the operators. *)
Definition after (ops : list string) (ts : list tok) : Prop := match ts with TSemi :: _ => True | TOp o :: _ => In o ops | _ => False end.
Ltac cases_after rest Hr := destruct rest as [|[?|?|?|] rest]; cbn in Hr; try contradiction Hr; repeat (destruct Hr as [<-|Hr]); try contradiction Hr.
Lemma w_eq (same : bool) T e T' e' : is_expr T e -> is_expr T' e' -> whole (T ++ TOp (if same then "==" else "!=") :: T') (XEq same e e').
Proof.
  intros (k & H) (k' & H'). exists (k + k'). intros n rest Hn Hr. unfold p_expr. rewrite <- app_assoc. cbn [app]. rewrite H by (try lia; destruct same; repeat split). destruct same; cbn [andthen expect String.eqb Ascii.eqb Bool.eqb]; rewrite H' by (auto using ended_stop || lia); reflexivity.
Qed.
Definition is_list (T : list tok) (l : list gexpr) : Prop := exists k, forall n rest, k <= n -> after ["{"; "="; ":="; "}"] rest -> p_list n (T ++ rest) = Some (l, rest).
Lemma l_one T e : whole T e -> is_list T [e].
Proof.
  intros (k & H). exists (S k). intros [|n] rest Hn Hr; [lia|]. cbn [p_list]. rewrite H; [|lia|]; cases_after rest Hr; cbn; tauto || reflexivity.
Qed.
Lemma l_two T e T' e' : whole T e -> whole T' e' -> is_list (T ++ TOp "," :: T') [e; e'].
Proof.
  intros (k & H) W. destruct (l_one T' e' W) as (k' & L). exists (S (k + k')). intros [|n] rest Hn Hr; [lia|]. rewrite <- app_assoc. cbn [app p_list]. rewrite H by (try lia; cbn; tauto). cbn [andthen expect String.eqb Ascii.eqb Bool.eqb].
  rewrite L by (assumption || lia). reflexivity.
Qed.
Definition final : list tok -> Prop := after ["{"; "}"].
Definition is_simple (T : list tok) (g : gstmt) : Prop := exists k, forall n rest, k <= n -> final rest -> p_simple n (T ++ rest) = Some (g, rest).
Lemma final_list rest : final rest -> after ["{"; "="; ":="; "}"] rest.
Proof. intros Hr. unfold final in Hr. cases_after rest Hr; cbn; tauto. Qed.
Lemma s_set (new : bool) Tl l Tr r : is_list Tl l -> is_list Tr r -> is_simple (Tl ++ TOp (if new then ":=" else "=") :: Tr) (GSet new l r).
Proof.
  intros (k & H) (k' & H'). exists (k + k'). intros n rest Hn Hr. unfold p_simple. rewrite <- app_assoc. cbn [app].
  rewrite H; [|lia|destruct new; cbn; tauto]. destruct new; cbn [andthen expect String.eqb Ascii.eqb Bool.eqb]; rewrite H' by (auto using final_list || lia); reflexivity.
Qed.
Lemma s_expr T e : whole T e -> is_simple T (GExpr e).
Proof.
  intros W. destruct (l_one T e W) as (k & H). exists k. intros n rest Hn Hr. unfold p_simple. rewrite H by auto using final_list. cbn [andthen]. unfold final in Hr. cases_after rest Hr; reflexivity.
Qed.
(** A statement *)
Definition simple_start (T : list tok) : bool :=
  match T with TOp o :: _ => negb (String.eqb o "{") && negb (String.eqb o "}") | TId k :: _ => negb (existsb (String.eqb k) ["if"; "for"; "var"; "return"]) | _ => false end.
Definition stmt_end : list tok -> Prop := after ["}"].
Definition is_stmt (T : list tok) (g : gstmt) : Prop := (forall rest l, @expect (list gstmt) "}" l (T ++ rest) = None) /\ exists k, forall n rest, k <= n -> stmt_end rest -> p_stmt n (T ++ rest) = Some (g, rest).
Lemma end_final rest : stmt_end rest -> final rest.
Proof. intros Hr. unfold stmt_end in Hr. cases_after rest Hr; cbn; tauto. Qed.
Lemma g_simple T g : simple_start T = true -> is_simple T g -> is_stmt T g.
Proof.
  intros S (k & H). split.
  - intros rest l. destruct T as [|[x|x|o|] T]; try discriminate S; [reflexivity|]. cbn in S |- *. destruct (String.eqb o "}"); [rewrite andb_false_r in S; discriminate S|reflexivity].
  - exists (Datatypes.S k). intros [|n] rest Hn Hr; [lia|]. specialize (H n rest ltac:(lia) (end_final _ Hr)). destruct T as [|[x|x|o|] T]; try discriminate S; cbn [app p_stmt simple_start existsb] in *.
    + rewrite !negb_orb in S. destruct (String.eqb x "if"); [discriminate S|]. destruct (String.eqb x "for"); [discriminate S|]. destruct (String.eqb x "var"); [discriminate S|]. destruct (String.eqb x "return"); [discriminate S|]. exact H.
    + destruct (String.eqb o "{"); [discriminate S|]. exact H.
Qed.
Lemma g_var x T t : is_keyword x = false -> is_type T t -> is_stmt (TId "var" :: TId x :: T) (GVar x t).
Proof.
  intros K (k & H). split; [reflexivity|]. exists (S k). intros [|n] rest Hn Hr; [lia|]. cbn [app p_stmt String.eqb Ascii.eqb Bool.eqb]. rewrite K, H; [reflexivity|lia|]. unfold stmt_end in Hr. cases_after rest Hr; cbn; tauto || reflexivity.
Qed.
Lemma g_return T e : whole T e -> is_stmt (TId "return" :: T) (GReturn e).
Proof.
  intros (k & H). split; [reflexivity|]. exists (S k). intros [|n] rest Hn Hr; [lia|]. cbn [app p_stmt String.eqb Ascii.eqb Bool.eqb]. rewrite H; [reflexivity|lia|]. unfold stmt_end in Hr. cases_after rest Hr; cbn; tauto.
Qed.
(** Statements, each with its semicolon *)
Definition are_stmts (T : list tok) (gs : list gstmt) : Prop :=
  exists k, forall n rest, k <= n -> p_block (List.length gs + n) (T ++ rest) = andthen (p_block n rest) (fun b ts => Some (gs ++ b, ts)).
Lemma b_nil : are_stmts [] [].
Proof. exists 0. intros n rest _. cbn. destruct (p_block n rest) as [[b ts]|]; reflexivity. Qed.
Lemma b_one T g : is_stmt T g -> are_stmts (T ++ [TSemi]) [g].
Proof.
  intros (C & k & H). exists k. intros n rest Hn. cbn [List.length plus p_block]. rewrite <- app_assoc, C. cbn [app]. rewrite H by (try lia; cbn; tauto). reflexivity.
Qed.
Lemma b_app T gs T' gs' : are_stmts T gs -> are_stmts T' gs' -> are_stmts (T ++ T') (gs ++ gs').
Proof.
  intros (k & H) (k' & H'). exists (k + k'). intros n rest Hn. rewrite app_length, <- app_assoc, <- Nat.add_assoc. rewrite H by lia. rewrite H' by lia. destruct (p_block n rest) as [[b ts]|]; cbn; [now rewrite app_assoc|reflexivity].
Qed.
Lemma b_close T gs : are_stmts T gs -> exists k, forall n rest, k <= n -> p_block n (T ++ TOp "}" :: rest) = Some (gs, rest).
Proof.
  intros (k & H). exists (List.length gs + k + 1). intros n rest Hn. replace n with (List.length gs + S (n - List.length gs - 1)) by lia. rewrite H by lia. cbn. now rewrite app_nil_r.
Qed.
(** A body on one line: the last statement has no semicolon *)
Lemma b_last T g : is_stmt T g -> exists k, forall n rest, k <= n -> p_block n (T ++ TOp "}" :: rest) = Some ([g], rest).
Proof.
  intros (C & k & H). exists (S k). intros [|n] rest Hn; [lia|]. cbn [p_block]. rewrite C. rewrite H by (try lia; cbn; tauto). reflexivity.
Qed.
Lemma g_block T gs : are_stmts T gs -> is_stmt (TOp "{" :: T ++ [TOp "}"]) (GBlock gs).
Proof.
  intros B. destruct (b_close T gs B) as (k & H). split; [reflexivity|]. exists (S k). intros [|n] rest Hn Hr; [lia|]. cbn [app p_stmt String.eqb Ascii.eqb Bool.eqb]. rewrite <- app_assoc. cbn [app]. rewrite H by lia. reflexivity.
Qed.
Lemma g_if_any C c T gs : whole C c -> (exists k, forall n rest, k <= n -> p_block n (T ++ TOp "}" :: rest) = Some (gs, rest)) -> is_stmt (TId "if" :: C ++ TOp "{" :: T ++ [TOp "}"]) (GIf None c gs None).
Proof.
  intros W (k & H). destruct (s_expr C c W) as (k' & S'). split; [reflexivity|]. exists (S (k + k')). intros [|n] rest Hn Hr; [lia|]. cbn [app p_stmt String.eqb Ascii.eqb Bool.eqb]. rewrite <- app_assoc. cbn [app].
  rewrite S'; [|lia|cbn; tauto]. cbn [andthen]. cbn [expect String.eqb Ascii.eqb Bool.eqb andthen]. rewrite <- app_assoc. cbn [app]. rewrite H by lia. cbn [andthen]. unfold stmt_end in Hr. cases_after rest Hr; reflexivity.
Qed.
Lemma g_if C c T gs : whole C c -> are_stmts T gs -> is_stmt (TId "if" :: C ++ TOp "{" :: T ++ [TOp "}"]) (GIf None c gs None).
Proof. intros W B. apply g_if_any; [exact W|exact (b_close T gs B)]. Qed.
Lemma g_ifelse C c T gs T' gs' : whole C c -> are_stmts T gs -> are_stmts T' gs' -> is_stmt (TId "if" :: C ++ TOp "{" :: T ++ TOp "}" :: TId "else" :: TOp "{" :: T' ++ [TOp "}"]) (GIf None c gs (Some gs')).
Proof.
  intros W B B'. destruct (b_close T gs B) as (k & H), (b_close T' gs' B') as (k2 & H2), (s_expr C c W) as (k' & S'). split; [reflexivity|]. exists (S (k + k2 + k')). intros [|n] rest Hn Hr; [lia|]. cbn [app p_stmt String.eqb Ascii.eqb Bool.eqb]. rewrite <- app_assoc. cbn [app].
  rewrite S'; [|lia|cbn; tauto]. cbn [andthen]. cbn [expect String.eqb Ascii.eqb Bool.eqb andthen]. rewrite <- app_assoc. cbn [app]. rewrite H by lia. cbn [andthen expect String.eqb Ascii.eqb Bool.eqb]. rewrite <- app_assoc. cbn [app]. rewrite H2 by lia. reflexivity.
Qed.
Lemma g_if_first S0 s C c T gs : is_simple S0 s -> whole C c -> are_stmts T gs -> is_stmt (TId "if" :: S0 ++ TSemi :: C ++ TOp "{" :: T ++ [TOp "}"]) (GIf (Some s) c gs None).
Proof.
  intros (k1 & S1) (k' & W) B. destruct (b_close T gs B) as (k & H). split; [reflexivity|]. exists (S (k + k' + k1)). intros [|n] rest Hn Hr; [lia|]. cbn [app p_stmt String.eqb Ascii.eqb Bool.eqb]. rewrite <- app_assoc. cbn [app].
  rewrite S1; [|lia|cbn; tauto]. cbn [andthen]. rewrite <- app_assoc. cbn [app]. rewrite W by (try lia; cbn; tauto). cbn [andthen expect String.eqb Ascii.eqb Bool.eqb]. rewrite <- app_assoc. cbn [app]. rewrite H by lia. reflexivity.
Qed.
Lemma g_range x y E e T gs : is_keyword x = false -> match y with Some y => is_keyword y = false | None => True end -> whole E e -> are_stmts T gs ->
  is_stmt (TId "for" :: TId x :: (match y with Some y => [TOp ","; TId y] | None => [] end) ++ TOp ":=" :: TId "range" :: E ++ TOp "{" :: T ++ [TOp "}"]) (GRange x y e gs).
Proof.
  intros Kx Ky (k' & W) B. destruct (b_close T gs B) as (k & H). split; [reflexivity|]. exists (S (k + k')). intros [|n] rest Hn Hr; [lia|]. cbn [app p_stmt String.eqb Ascii.eqb Bool.eqb]. unfold p_range. rewrite Kx.
  destruct y as [y|]; cbn [app andthen expect String.eqb Ascii.eqb Bool.eqb]; [rewrite Ky|]; cbn [app andthen expect String.eqb Ascii.eqb Bool.eqb]; rewrite <- app_assoc; cbn [app]; (rewrite W by (try lia; cbn; tauto)); cbn [andthen expect String.eqb Ascii.eqb Bool.eqb]; rewrite <- app_assoc; cbn [app]; (rewrite H by lia); reflexivity.
Qed.
