(** * The lines of a body are read as its statements (for C67) *)
From Coq Require Import List String Ascii Bool Arith Lia.
From Verif Require Import GoLib DeepModel TextSpec TextModel CopiesModel TextProofs.
Import ListNotations.
Open Scope string_scope.
Open Scope nat_scope.
Open Scope list_scope.

Definition lexes (s : string) (T : list tok) : Prop := forall ts, scan s (mkL Idle false ts) = mkL Idle false (rev T ++ ts).
Lemma lexes_app a b T T' : lexes a T -> lexes b T' -> lexes (a ++ b) (T ++ T').
Proof. intros H H' ts. rewrite scan_app, H, H', rev_app_distr, app_assoc. reflexivity. Qed.
Lemma sapp_assoc a b c : ((a ++ b) ++ c = a ++ (b ++ c))%string.
Proof. induction a as [|x a IH]; [reflexivity|cbn; now rewrite IH]. Qed.
Lemma unlines_app a b : unlines (a ++ b) = (unlines a ++ unlines b)%string.
Proof. induction a as [|x a IH]; [reflexivity|]. cbn [app unlines]. rewrite IH, !sapp_assoc. reflexivity. Qed.
Lemma unlines_one l : unlines [l] = (l ++ newline)%string.
Proof. reflexivity. Qed.
Lemma scan_ident x c r e ts : identifier x = true -> word_char c = false -> scan (x ++ String c r) (mkL Idle e ts) = scan (String c r) (mkL Idle true (TId x :: ts)).
Proof. intros I W. rewrite scan_app, (ident_scan x _ e ts I (settled_idle e ts)). now apply word_done. Qed.

Definition says (ls : list string) (gs : list gstmt) : Prop := exists T, lexes (unlines ls) T /\ are_stmts T gs.
Lemma says_nil : says [] [].
Proof. exists []. split; [intros ts; reflexivity|apply b_nil]. Qed.
Lemma says_app a gs b gs' : says a gs -> says b gs' -> says (a ++ b) (gs ++ gs').
Proof. intros (T & L & S) (T' & L' & S'). exists (T ++ T'). split; [rewrite unlines_app; now apply lexes_app|now apply b_app]. Qed.
Lemma says_line l T g : lexes (l ++ newline) (T ++ [TSemi]) -> is_stmt T g -> says [l] [g].
Proof. intros L S. exists (T ++ [TSemi]). split; [cbn [unlines]; unfold newline in *; cbn [append]; exact L|now apply b_one]. Qed.
Lemma says_wrap first ls last F T0 T1 g : lexes (first ++ newline) F -> lexes (last ++ newline) (T1 ++ [TSemi]) -> lexes (unlines ls) T0 -> is_stmt (F ++ T0 ++ T1) g -> says ([first] ++ ls ++ [last]) [g].
Proof.
  intros L1 L2 L S. exists ((F ++ T0 ++ T1) ++ [TSemi]). split; [|now apply b_one]. rewrite !unlines_app. cbn [unlines]. rewrite <- !app_assoc. unfold newline in *. cbn [append]. apply lexes_app; [exact L1|]. apply lexes_app; [exact L|exact L2].
Qed.
Lemma lexes_close : lexes ("}" ++ newline) ([TOp "}"] ++ [TSemi]).
Proof. intros ts. reflexivity. Qed.
Lemma says_if l C c ls gs : lexes (l ++ newline) (TId "if" :: C ++ [TOp "{"]) -> whole C c -> says ls gs -> says ([l] ++ ls ++ ["}"]) [GIf None c gs None].
Proof.
  intros L W (T & Lb & S). refine (says_wrap l ls "}" _ T [TOp "}"] _ L lexes_close Lb _). cbn [app]. rewrite <- app_assoc. cbn [app]. now apply g_if.
Qed.
Lemma says_range l x y E e ls gs : lexes (l ++ newline) (TId "for" :: TId x :: (match y with Some y => [TOp ","; TId y] | None => [] end) ++ TOp ":=" :: TId "range" :: E ++ [TOp "{"]) ->
  is_keyword x = false -> match y with Some y => is_keyword y = false | None => True end -> whole E e -> says ls gs -> says ([l] ++ ls ++ ["}"]) [GRange x y e gs].
Proof.
  intros L Kx Ky W (T & Lb & S). refine (says_wrap l ls "}" _ T [TOp "}"] _ L lexes_close Lb _). assert (G := g_range x y E e T gs Kx Ky W S). destruct y as [y|]; cbn [app] in *; rewrite <- app_assoc; exact G.
Qed.
Lemma says_block ls gs : says ls gs -> says (["{"] ++ ls ++ ["}"]) [GBlock gs].
Proof.
  intros (T & Lb & S). refine (says_wrap "{" ls "}" [TOp "{"] T [TOp "}"] _ _ lexes_close Lb _); [intros ts; reflexivity|]. cbn [app]. now apply g_block.
Qed.
Lemma says_ifelse l C c ls gs ls' gs' : lexes (l ++ newline) (TId "if" :: C ++ [TOp "{"]) -> whole C c -> says ls gs -> says ls' gs' -> says ([l] ++ ls ++ ["} else {"] ++ ls' ++ ["}"]) [GIf None c gs (Some gs')].
Proof.
  intros L W (T & Lb & S) (T' & Lb' & S'). exists ((TId "if" :: C ++ TOp "{" :: T ++ TOp "}" :: TId "else" :: TOp "{" :: T' ++ [TOp "}"]) ++ [TSemi]). split; [|apply b_one, g_ifelse; assumption].
  assert (E : (TId "if" :: C ++ TOp "{" :: T ++ TOp "}" :: TId "else" :: TOp "{" :: T' ++ [TOp "}"]) ++ [TSemi] = (TId "if" :: C ++ [TOp "{"]) ++ T ++ [TOp "}"; TId "else"; TOp "{"] ++ T' ++ ([TOp "}"] ++ [TSemi])) by (cbn [app]; repeat (rewrite <- app_assoc; cbn [app]); reflexivity).
  rewrite E, !unlines_app, !unlines_one. apply lexes_app; [exact L|]. apply lexes_app; [exact Lb|].
  apply lexes_app; [intros ts; reflexivity|]. apply lexes_app; [exact Lb'|intros ts; reflexivity].
Qed.

(** ** Operands and expressions *)
Lemma o_star (s : string) : is_keyword s = false -> is_operand [TOp "("; TOp "*"; TId s; TOp ")"] (XStar (XId s)).
Proof. intros K. apply (o_paren [TOp "*"; TId s]). apply e_star, e_id, K. Qed.
Lemma o_elem (s i : string) : is_keyword s = false -> is_keyword i = false -> is_operand [TOp "("; TOp "*"; TId s; TOp ")"; TOp "["; TId i; TOp "]"] (XIdx (XStar (XId s)) (XId i)).
Proof. intros K Ki. apply (o_idx [TOp "("; TOp "*"; TId s; TOp ")"] _ [TId i]); [now apply o_star|now apply e_id]. Qed.
Lemma o_field (s f : string) : is_keyword s = false -> is_keyword f = false -> is_operand [TId s; TOp "."; TId f] (XSel (XId s) f).
Proof. intros K Kf. apply (o_sel [TId s]); [now apply o_id|exact Kf]. Qed.
Lemma o_copy T e : is_operand T e -> is_operand (T ++ [TOp "."; TId "DeepCopy"; TOp "("; TOp ")"]) (call e "DeepCopy" []).
Proof. intros O. assert (X := o_call (T ++ [TOp "."; TId "DeepCopy"]) _ [] [] (o_sel _ _ "DeepCopy" O eq_refl) a_nil). rewrite <- app_assoc in X. exact X. Qed.
Lemma o_into T e Ta a : is_operand T e -> is_expr Ta a -> is_operand (T ++ TOp "." :: TId "DeepCopyInto" :: TOp "(" :: Ta ++ [TOp ")"]) (call e "DeepCopyInto" [a]).
Proof. intros O A. assert (X := o_call (T ++ [TOp "."; TId "DeepCopyInto"]) _ Ta [a] (o_sel _ _ "DeepCopyInto" O eq_refl) (a_one _ _ A)). rewrite <- app_assoc in X. exact X. Qed.
Lemma g_set1 (new : bool) Tl l Tr r : simple_start Tl = true -> is_expr Tl l -> is_expr Tr r -> is_stmt (Tl ++ TOp (if new then ":=" else "=") :: Tr) (GSet new [l] [r]).
Proof. intros S L R. apply g_simple; [destruct Tl as [|[]]; try discriminate S; exact S|]. apply s_set; apply l_one, w_expr; assumption. Qed.
Lemma g_inout T1 e1 T2 e2 : is_expr T1 e1 -> is_expr T2 e2 -> is_stmt (TId "in" :: TOp "," :: TId "out" :: TOp ":=" :: T1 ++ TOp "," :: T2) (GSet true [XId "in"; XId "out"] [e1; e2]).
Proof.
  intros H1 H2. apply g_simple; [reflexivity|]. apply (s_set true [TId "in"; TOp ","; TId "out"] _ (T1 ++ TOp "," :: T2)); [apply (l_two [TId "in"] _ [TId "out"]); apply w_expr, e_id; reflexivity|]. apply l_two; apply w_expr; assumption.
Qed.
Lemma g_expr T e : simple_start T = true -> is_operand T e -> is_stmt T (GExpr e).
Proof. intros S O. apply g_simple; [exact S|]. apply s_expr, w_expr, o_expr, O. Qed.
