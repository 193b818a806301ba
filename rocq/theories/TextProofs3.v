(** * The text of a body is read as the statements of DeepModel (for C67) *)
From Coq Require Import List String Ascii Bool Arith Lia.
From Verif Require Import GoLib DeepModel TextSpec TextModel CopiesModel TextProofs TextProofs2.
Import ListNotations.
Open Scope string_scope.
Open Scope nat_scope.
Open Scope list_scope.

Section Bodies.
  Variable decls : string -> decl.
  Variable qualifier : string -> option string.
  Variable bare : string -> string.
  Variable field_name : string -> nat -> string.
  Variable string_of : ty -> string.
  Variable self : string.
  Hypothesis bare_ident : forall n, identifier (bare n) = true.
  Hypothesis qual_ident : forall n a, qualifier n = Some a -> identifier a = true.
  Hypothesis field_ident : forall i, identifier (field_name self i) = true.
  Notation ty_text := (syntax_text qualifier bare string_of).
  Notation ttoks := (ty_toks qualifier bare).
  Notation ttree := (ty_tree qualifier bare).
  Notation tree := (stmt_tree qualifier bare (field_name self)).
  Notation ltree := (lval_tree (field_name self)).

  Definition agrees (t : text) (r : res) : Prop :=
    match r with Some (ss, es) => exists ls, t = Some ls /\ (Forall nameable (flat_map stmt_types ss) -> says ls (map tree ss)) | None => t = None end.
  Lemma ag_seq a r b r' : agrees a r -> agrees b r' -> agrees (and a b) (seq2 r r').
  Proof.
    destruct r as [[ss es]|]; [|intros ->; reflexivity]. intros (ls & -> & H). destruct r' as [[ss' es']|]; [|intros ->; reflexivity]. intros (ls' & -> & H'). exists (ls ++ ls'). split; [reflexivity|].
    rewrite flat_map_app, map_app. intros F. apply Forall_app in F as (F & F'). apply says_app; auto.
  Qed.
  Lemma ag_none es : agrees no_line (Some ([], es)).
  Proof. exists []. split; [reflexivity|]. intros _. apply says_nil. Qed.
  Lemma ag_line l s es : (Forall nameable (stmt_types s) -> says [l] [tree s]) -> agrees (line l) (Some ([s], es)).
  Proof. intros H. exists [l]. split; [reflexivity|]. cbn [flat_map map]. rewrite app_nil_r. exact H. Qed.
  Lemma ag_lit l s es T : lexes (l ++ newline) (T ++ [TSemi]) -> is_stmt T (tree s) -> agrees (line l) (Some ([s], es)).
  Proof. intros L S. apply ag_line. intros _. now apply (says_line l T). Qed.
  Lemma ag_two l s l' s' es T T' : lexes (l ++ newline) (T ++ [TSemi]) -> is_stmt T (tree s) -> lexes (l' ++ newline) (T' ++ [TSemi]) -> is_stmt T' (tree s') -> agrees (and (line l) (line l')) (Some ([s; s'], es)).
  Proof.
    intros L S L' S'. change (Some ([s; s'], es)) with (seq2 (Some ([s], es)) (Some ([s'], []))) || idtac.
    exists [l; l']. split; [reflexivity|]. intros _. apply (says_app [l] [tree s] [l'] [tree s']); [now apply (says_line l T)|now apply (says_line l' T')].
  Qed.
  Lemma ag_if setup C lv b r : lexes ("if " ++ setup ++ " {" ++ newline) (TId "if" :: C ++ [TOp "{"]) -> whole C (XEq false (ltree lv) (XId "nil")) -> agrees b r -> agrees (t_if setup b) (wrap (fun b => [SIfSome lv b]) r).
  Proof.
    intros L W. destruct r as [[ss es]|]; [|intros ->; reflexivity]. intros (ls & -> & H). eexists. split; [reflexivity|]. cbn [flat_map map stmt_types stmt_tree]. rewrite app_nil_r. intros F.
    refine (says_if _ C _ ls _ _ W (H F)). rewrite !sapp_assoc. exact L.
  Qed.
  Lemma ag_if_pre setup C lv l s T b r : lexes ("if " ++ setup ++ " {" ++ newline) (TId "if" :: C ++ [TOp "{"]) -> whole C (XEq false (ltree lv) (XId "nil")) ->
    lexes (l ++ newline) (T ++ [TSemi]) -> is_stmt T (tree s) -> agrees b r -> agrees (t_if setup (and (line l) b)) (wrap (fun b => [SIfSome lv (s :: b)]) r).
  Proof.
    intros L W Ll Ls A. replace (wrap (fun b => [SIfSome lv (s :: b)]) r) with (wrap (fun b => [SIfSome lv b]) (seq2 (Some ([s], [])) r)) by (destruct r as [[]|]; reflexivity).
    apply (ag_if setup C); [exact L|exact W|]. apply ag_seq; [now apply (ag_lit l s [] T)|exact A].
  Qed.
  Lemma ag_for (y : option string) setup (f : list stmt -> stmt) b r : 
    lexes ("for " ++ setup ++ " {" ++ newline) (TId "for" :: TId (match y with Some _ => "key" | None => "i" end) :: (match y with Some y => [TOp ","; TId y] | None => [] end) ++ TOp ":=" :: TId "range" :: [TOp "*"; TId "in"] ++ [TOp "{"]) ->
    match y with Some y => y = "val" /\ f = SForMap star_in | None => f = SForSlice star_in end ->
    agrees b r -> agrees (t_for setup b) (wrap (fun b => [f b]) r).
  Proof.
    intros L Y. destruct r as [[ss es]|]; [|intros ->; reflexivity]. intros (ls & -> & H). eexists. split; [reflexivity|].
    assert (E : flat_map stmt_types [f ss] = flat_map stmt_types ss /\ map tree [f ss] = [GRange (match y with Some _ => "key" | None => "i" end) y (XStar (XId "in")) (map tree ss)]).
    { destruct y as [y|]; [destruct Y as (-> & ->)|subst f]; cbn [flat_map map stmt_types stmt_tree]; rewrite app_nil_r; split; reflexivity. }
    destruct E as (-> & ->). intros F. refine (says_range _ _ y _ _ ls _ _ _ _ _ (H F)).
    - rewrite !sapp_assoc. exact L.
    - destruct y; reflexivity.
    - destruct y as [y|]; [destruct Y as (-> & _); reflexivity|exact I].
    - apply w_expr, e_star, e_id. reflexivity.
  Qed.

  (** ** Types *)
  Lemma make_line t : nameable t -> says [("*out = make(" ++ ty_text t ++ ", len(*in))")%string] [tree (SSet star_out (EMake t star_in))].
  Proof.
    intros N. apply (says_line _ ([TOp "*"; TId "out"; TOp "="; TId "make"; TOp "("] ++ (ttoks t ++ TOp "," :: [TId "len"; TOp "("; TOp "*"; TId "in"; TOp ")"]) ++ [TOp ")"])).
    - intros ts. rewrite !sapp_assoc, scan_app. change (scan "*out = make(" (mkL Idle false ts)) with (mkL Idle false (TOp "(" :: TId "make" :: TOp "=" :: TId "out" :: TOp "*" :: ts)).
      change (", len(*in))" ++ newline)%string with (String "," (" len(*in))" ++ newline)). rewrite (ty_scan qualifier bare string_of bare_ident qual_ident t N _ _ _ ","%char _ (settled_idle false _) eq_refl).
      rewrite !rev_app_distr. cbn [rev app]. rewrite <- !app_assoc. cbn [app]. reflexivity.
    - apply (g_set1 false [TOp "*"; TId "out"] _ (TId "make" :: TOp "(" :: (ttoks t ++ TOp "," :: [TId "len"; TOp "("; TOp "*"; TId "in"; TOp ")"]) ++ [TOp ")"])); [reflexivity|apply e_star, e_id; reflexivity|].
      apply o_expr. apply (o_call [TId "make"] (XId "make") (ttoks t ++ TOp "," :: [TId "len"; TOp "("; TOp "*"; TId "in"; TOp ")"])); [apply o_id; reflexivity|]. apply a_two; [now apply ty_expr|].
      apply o_expr, (o_call [TId "len"] (XId "len") [TOp "*"; TId "in"]); [apply o_id; reflexivity|]. apply a_one, e_star, e_id. reflexivity.
  Qed.
  Lemma new_line t : nameable t -> says [("*out = new(" ++ ty_text t ++ ")")%string] [tree (SSet star_out (ENew t))].
  Proof.
    intros N. apply (says_line _ ([TOp "*"; TId "out"; TOp "="; TId "new"; TOp "("] ++ ttoks t ++ [TOp ")"])).
    - intros ts. rewrite !sapp_assoc, scan_app. change (scan "*out = new(" (mkL Idle false ts)) with (mkL Idle false (TOp "(" :: TId "new" :: TOp "=" :: TId "out" :: TOp "*" :: ts)).
      change (")" ++ newline)%string with (String ")" newline). rewrite (ty_scan qualifier bare string_of bare_ident qual_ident t N _ _ _ ")"%char _ (settled_idle false _) eq_refl).
      rewrite !rev_app_distr. cbn [rev app]. rewrite <- !app_assoc. cbn [app]. reflexivity.
    - apply (g_set1 false [TOp "*"; TId "out"] _ (TId "new" :: TOp "(" :: ttoks t ++ [TOp ")"])); [reflexivity|apply e_star, e_id; reflexivity|].
      apply o_expr, (o_call [TId "new"]); [apply o_id; reflexivity|]. apply a_one. now apply ty_expr.
  Qed.
  Lemma var_line t : nameable t -> says [("var outVal " ++ ty_text t)%string] [tree (SVar "outVal" t)].
  Proof.
    intros N. apply (says_line _ (TId "var" :: TId "outVal" :: ttoks t)).
    - intros ts. rewrite !sapp_assoc, scan_app. change (scan "var outVal " (mkL Idle false ts)) with (mkL Idle true (TId "outVal" :: TId "var" :: ts)).
      unfold newline. rewrite (ty_scan qualifier bare string_of bare_ident qual_ident t N _ _ _ nl _ (settled_idle true _) eq_refl). cbn [app]. 
      change (TId "var" :: TId "outVal" :: ttoks t ++ [TSemi]) with ([TId "var"; TId "outVal"] ++ ttoks t ++ [TSemi]). rewrite !rev_app_distr. cbn [rev app]. rewrite <- !app_assoc. reflexivity.
    - apply g_var; [reflexivity|]. now apply ty_type.
  Qed.
  Lemma ag_ty l s t es : stmt_types s = [t] -> (nameable t -> says [l] [tree s]) -> agrees (line l) (Some ([s], es)).
  Proof. intros E H. apply ag_line. rewrite E. intros F. apply H. now inversion F. Qed.

  (** ** The generator *)
  Ltac lit := intros ?ts; reflexivity.
  Ltac ids := first [reflexivity | apply ident_key; apply field_ident].
  Lemma out_key_set T e : is_expr T e -> is_stmt ([TOp "("; TOp "*"; TId "out"; TOp ")"; TOp "["; TId "key"; TOp "]"] ++ TOp "=" :: T) (GSet false [XIdx (XStar (XId "out")) (XId "key")] [e]).
  Proof. intros H. apply (g_set1 false); [reflexivity| |exact H]. apply o_expr, o_elem; reflexivity. Qed.
  Lemma out_set T e : is_expr T e -> is_stmt ([TOp "*"; TId "out"] ++ TOp "=" :: T) (GSet false [XStar (XId "out")] [e]).
  Proof. intros H. apply (g_set1 false); [reflexivity| |exact H]. apply e_star, e_id. reflexivity. Qed.
  Lemma x_set x T e : is_keyword x = false -> simple_start [TId x] = true -> is_expr T e -> is_stmt ([TId x] ++ TOp ":=" :: T) (GSet true [XId x] [e]).
  Proof. intros K S H. apply (g_set1 true); [exact S| |exact H]. apply e_id, K. Qed.
  Lemma val_copy : is_operand [TId "val"; TOp "."; TId "DeepCopy"; TOp "("; TOp ")"] (call (XId "val") "DeepCopy" []).
  Proof. apply (o_copy [TId "val"]), o_id. reflexivity. Qed.

  (** Lines with the name of a field *)
  Section Field.
    Variable x : string.
    Hypothesis Ix : identifier x = true.
    Lemma scan_id2 s e ts : match s with String c _ => word_char c = false | "" => False end -> scan (x ++ s) (mkL Idle e ts) = scan s (mkL Idle true (TId x :: ts)).
    Proof. destruct s as [|c r]; [contradiction|]. intros W. now apply scan_ident. Qed.
    Ltac flex := intros ts; rewrite ?sapp_assoc;
      repeat (rewrite scan_app; match goal with |- context [scan ?l (mkL Idle ?e ?t)] => match l with String _ _ => let v := eval vm_compute in (scan l (mkL Idle e t)) in change (scan l (mkL Idle e t)) with v end end; rewrite scan_id2 by reflexivity); reflexivity.
    Lemma f_cond : lexes ("if " ++ ("in." ++ x ++ " != nil") ++ " {" ++ newline) (TId "if" :: [TId "in"; TOp "."; TId x; TOp "!="; TId "nil"] ++ [TOp "{"]).
    Proof.
      intros ts. rewrite !sapp_assoc. change ("if " ++ ("in." ++ (x ++ (" != nil" ++ (" {" ++ newline)))))%string with ("if in." ++ (x ++ (" != nil {" ++ newline)))%string.
      rewrite scan_app. change (scan "if in." (mkL Idle false ts)) with (mkL Idle false (TOp "." :: TId "in" :: TId "if" :: ts)). rewrite scan_id2 by reflexivity. reflexivity.
    Qed.
    Lemma f_inout : lexes (("in, out := &in." ++ x ++ ", &out." ++ x) ++ newline) ((TId "in" :: TOp "," :: TId "out" :: TOp ":=" :: [TOp "&"; TId "in"; TOp "."; TId x] ++ TOp "," :: [TOp "&"; TId "out"; TOp "."; TId x]) ++ [TSemi]).
    Proof. flex. Qed.
    Lemma f_copy : lexes (("out." ++ x ++ " = in." ++ x ++ ".DeepCopy()") ++ newline) (([TId "out"; TOp "."; TId x] ++ TOp "=" :: [TId "in"; TOp "."; TId x; TOp "."; TId "DeepCopy"; TOp "("; TOp ")"]) ++ [TSemi]).
    Proof. flex. Qed.
    Lemma f_into : lexes (("in." ++ x ++ ".DeepCopyInto(&out." ++ x ++ ")") ++ newline) ([TId "in"; TOp "."; TId x; TOp "."; TId "DeepCopyInto"; TOp "("; TOp "&"; TId "out"; TOp "."; TId x; TOp ")"] ++ [TSemi]).
    Proof. flex. Qed.
    Lemma f_set : lexes (("out." ++ x ++ " = in." ++ x) ++ newline) (([TId "out"; TOp "."; TId x] ++ TOp "=" :: [TId "in"; TOp "."; TId x]) ++ [TSemi]).
    Proof. flex. Qed.
  End Field.

  Section Step.
    Variable n : nat.
    Variable tblock : ty -> text.
    Variable block : ty -> res.
    Hypothesis blocks : forall t, agrees (tblock t) (block t).
    Lemma ag_map_body e : agrees (map_body_text decls qualifier bare string_of n tblock e) (gen_map_body decls n block e).
    Proof.
      unfold map_body_text, gen_map_body, wr, wr_ty, fail.
      destruct (has_any decls e).
      - destruct (result_ptr decls n e (has_copy decls e)) as [p|]; [|reflexivity]. destruct (Bool.eqb _ _); [|destruct (is_ptr e)].
        + eapply (ag_lit _ _ _ (_ ++ TOp "=" :: [TId "val"; TOp "."; TId "DeepCopy"; TOp "("; TOp ")"])); [|exact (out_key_set _ _ (o_expr _ _ val_copy))]; lit.
        + eexists. split; [reflexivity|]. intros _. apply (says_block ["x := val.DeepCopy()"; "(*out)[key] = &x"]). apply (says_app ["x := val.DeepCopy()"] [_] ["(*out)[key] = &x"] [_]).
          * eapply (says_line _ (_ ++ TOp ":=" :: [TId "val"; TOp "."; TId "DeepCopy"; TOp "("; TOp ")"])); [|exact (x_set "x" _ _ eq_refl eq_refl (o_expr _ _ val_copy))]; lit.
          * eapply (says_line _ (_ ++ TOp "=" :: [TOp "&"; TId "x"])); [|exact (out_key_set _ _ (e_addr _ _ (e_id "x" eq_refl)))]; lit.
        + eapply (ag_lit _ _ _ (_ ++ TOp "=" :: TOp "*" :: [TId "val"; TOp "."; TId "DeepCopy"; TOp "("; TOp ")"])); [|exact (out_key_set _ _ (e_star _ _ (o_expr _ _ val_copy)))]; lit.
      - destruct (shallow decls n e) as [[|]|]; [| |reflexivity].
        + eapply (ag_lit _ _ _ (_ ++ TOp "=" :: [TId "val"])); [|exact (out_key_set _ _ (e_id "val" eq_refl))]; lit.
        + destruct (by_ref (under decls e)).
          * apply ag_seq; [apply (ag_ty _ _ (under decls e)); [reflexivity|apply var_line]|].
            assert (B := blocks e). destruct (block e) as [[ss es]|]; [|rewrite B; reflexivity]. destruct B as (ls & -> & B). eexists. split; [reflexivity|]. cbn [flat_map stmt_types expr_types map stmt_tree app]. rewrite app_nil_r. intros F. apply (says_app (["if val == nil {"] ++ ["(*out)[key] = nil"] ++ ["} else {"] ++ (["inVal := (*in)[key]"] ++ ["in, out := &inVal, &outVal"] ++ ls) ++ ["}"]) [_] ["(*out)[key] = outVal"] [_]).
            -- refine (says_ifelse _ [TId "val"; TOp "=="; TId "nil"] _ _ [_] _ _ _ _ _ _).
               ++ lit.
               ++ apply (w_eq true [TId "val"] _ [TId "nil"]); apply e_id; reflexivity.
               ++ eapply (says_line _ (_ ++ TOp "=" :: [TId "nil"])); [|exact (out_key_set _ _ (e_id "nil" eq_refl))]; lit.
               ++ apply (says_app ["inVal := (*in)[key]"] [_]); [|apply (says_app ["in, out := &inVal, &outVal"] [_])].
                  ** eapply (says_line _ (_ ++ TOp ":=" :: [TOp "("; TOp "*"; TId "in"; TOp ")"; TOp "["; TId "key"; TOp "]"])); [|exact (x_set "inVal" _ _ eq_refl eq_refl (o_expr _ _ (o_elem "in" "key" eq_refl eq_refl)))]; lit.
                  ** eapply (says_line _ _); [|exact (g_inout [TOp "&"; TId "inVal"] _ [TOp "&"; TId "outVal"] _ (e_addr _ _ (e_id "inVal" eq_refl)) (e_addr _ _ (e_id "outVal" eq_refl)))]; lit.
                  ** exact (B F).
            -- eapply (says_line _ (_ ++ TOp "=" :: [TId "outVal"])); [|exact (out_key_set _ _ (e_id "outVal" eq_refl))]; lit.
          * destruct (under decls e); try apply ag_none. eapply (ag_lit _ _ _ (_ ++ TOp "=" :: TOp "*" :: [TId "val"; TOp "."; TId "DeepCopy"; TOp "("; TOp ")"])); [|exact (out_key_set _ _ (e_star _ _ (o_expr _ _ val_copy)))]; lit.
    Qed.
    Lemma ag_map t key e : agrees (map_text decls qualifier bare string_of n tblock t key e) (gen_map decls n block t key e).
    Proof.
      unfold map_text, gen_map, wr, wr_ty, fail. destruct (shallow decls n key) as [[|]|]; [|apply ag_none|reflexivity]. apply ag_seq; [apply (ag_ty _ _ t); [reflexivity|apply make_line]|].
      apply (ag_for (Some "val") _ (SForMap star_in)); [lit|split; reflexivity|apply ag_map_body].
    Qed.
    Lemma into_elem : is_stmt [TOp "("; TOp "*"; TId "in"; TOp ")"; TOp "["; TId "i"; TOp "]"; TOp "."; TId "DeepCopyInto"; TOp "("; TOp "&"; TOp "("; TOp "*"; TId "out"; TOp ")"; TOp "["; TId "i"; TOp "]"; TOp ")"] (tree (SInto in_i (EAddr out_i))).
    Proof.
      apply g_expr; [reflexivity|]. apply (o_into [TOp "("; TOp "*"; TId "in"; TOp ")"; TOp "["; TId "i"; TOp "]"] _ [TOp "&"; TOp "("; TOp "*"; TId "out"; TOp ")"; TOp "["; TId "i"; TOp "]"]); [apply o_elem; reflexivity|]. apply e_addr, o_expr, o_elem; reflexivity.
    Qed.
    Lemma ag_slice t e : agrees (slice_text decls qualifier bare string_of n tblock t e) (gen_slice decls n block t e).
    Proof.
      unfold slice_text, gen_slice, wr, wr_ty, fail. apply ag_seq; [apply (ag_ty _ _ t); [reflexivity|apply make_line]|]. destruct (has_any decls e) eqn:A.
      - apply (ag_for None _ (SForSlice star_in) _ (Some ([SInto in_i (EAddr out_i)], []))); [lit|reflexivity|]. eapply (ag_lit _ _ _ _); [|exact into_elem]; lit.
      - destruct (shallow decls n (under decls e)) as [[|]|]; [| |reflexivity].
        + eapply (ag_lit _ _ _ [TId "copy"; TOp "("; TOp "*"; TId "out"; TOp ","; TOp "*"; TId "in"; TOp ")"]); [lit|]. apply g_expr; [reflexivity|]. apply (o_call [TId "copy"] _ [TOp "*"; TId "out"; TOp ","; TOp "*"; TId "in"]); [apply o_id; reflexivity|].
          apply (a_two [TOp "*"; TId "out"] _ [TOp "*"; TId "in"]); apply e_star, e_id; reflexivity.
        + apply (ag_for None _ (SForSlice star_in)); [lit|reflexivity|]. destruct (by_ref (under decls e) || false).
          * eapply (ag_if_pre _ [TOp "("; TOp "*"; TId "in"; TOp ")"; TOp "["; TId "i"; TOp "]"; TOp "!="; TId "nil"]); [| | |exact (g_inout [TOp "&"; TOp "("; TOp "*"; TId "in"; TOp ")"; TOp "["; TId "i"; TOp "]"] _ [TOp "&"; TOp "("; TOp "*"; TId "out"; TOp ")"; TOp "["; TId "i"; TOp "]"] _ (e_addr _ _ (o_expr _ _ (o_elem "in" "i" eq_refl eq_refl))) (e_addr _ _ (o_expr _ _ (o_elem "out" "i" eq_refl eq_refl))))|exact (blocks e)]; [lit| |lit].
            apply (w_eq false [TOp "("; TOp "*"; TId "in"; TOp ")"; TOp "["; TId "i"; TOp "]"] _ [TId "nil"]); [apply o_expr, o_elem; reflexivity|apply e_id; reflexivity].
          * destruct (under decls e); try apply ag_none. eapply (ag_lit _ _ _ _); [|exact into_elem]; lit.
    Qed.
    Lemma ag_pointer e : agrees (pointer_text decls qualifier bare string_of n tblock e) (gen_pointer decls n block e).
    Proof.
      unfold pointer_text, gen_pointer, wr, wr_ty, fail. assert (Oc : is_operand [TOp "("; TOp "*"; TId "in"; TOp ")"; TOp "."; TId "DeepCopy"; TOp "("; TOp ")"] (call (XStar (XId "in")) "DeepCopy" [])) by (apply (o_copy [TOp "("; TOp "*"; TId "in"; TOp ")"]), o_star; reflexivity).
      destruct (has_any decls e).
      - destruct (result_ptr decls n e (has_copy decls e)) as [p|]; [|reflexivity]. destruct (match has_copy decls e with Some p0 => p0 | None => p end).
        + eapply (ag_lit _ _ _ (_ ++ TOp "=" :: [TOp "("; TOp "*"; TId "in"; TOp ")"; TOp "."; TId "DeepCopy"; TOp "("; TOp ")"])); [|exact (out_set _ _ (o_expr _ _ Oc))]; lit.
        + eapply ag_two; [|exact (x_set "x" _ _ eq_refl eq_refl (o_expr _ _ Oc))| |exact (out_set [TOp "&"; TId "x"] _ (e_addr _ _ (e_id "x" eq_refl)))]; lit.
      - destruct (shallow decls n (under decls e)) as [[|]|]; [| |reflexivity].
        + eexists. split; [reflexivity|]. cbn [flat_map stmt_types expr_types app]. intros F. apply (says_app [_] [_] ["**out = **in"] [_]); [apply new_line; now inversion F|].
          eapply (says_line _ ([TOp "*"; TOp "*"; TId "out"] ++ TOp "=" :: [TOp "*"; TOp "*"; TId "in"])); [lit|]. apply (g_set1 false); [reflexivity| |]; apply e_star, e_star, e_id; reflexivity.
        + destruct (by_ref (under decls e)).
          * apply ag_seq; [apply (ag_ty _ _ (under decls e)); [reflexivity|apply new_line]|].
            eapply (ag_if_pre _ [TOp "*"; TOp "*"; TId "in"; TOp "!="; TId "nil"]); [| | |exact (g_inout [TOp "*"; TId "in"] _ [TOp "*"; TId "out"] _ (e_star _ _ (e_id "in" eq_refl)) (e_star _ _ (e_id "out" eq_refl)))|exact (blocks _)]; [lit| |lit].
            apply (w_eq false [TOp "*"; TOp "*"; TId "in"] _ [TId "nil"]); [apply e_star, e_star, e_id; reflexivity|apply e_id; reflexivity].
          * destruct (under decls e); try apply ag_none. eexists. split; [reflexivity|]. cbn [flat_map stmt_types expr_types app]. intros F. apply (says_app [_] [_] ["(*in).DeepCopyInto(*out)"] [_]); [apply new_line; now inversion F|].
            eapply (says_line _ [TOp "("; TOp "*"; TId "in"; TOp ")"; TOp "."; TId "DeepCopyInto"; TOp "("; TOp "*"; TId "out"; TOp ")"]); [lit|]. apply g_expr; [reflexivity|]. apply (o_into [TOp "("; TOp "*"; TId "in"; TOp ")"] _ [TOp "*"; TId "out"]); [apply o_star; reflexivity|apply e_star, e_id; reflexivity].
    Qed.
    Lemma ag_delegate i f : agrees (t_if ("in." ++ field_name self i ++ " != nil") (and (line ("in, out := &in." ++ field_name self i ++ ", &out." ++ field_name self i)) (tblock f)))
      (wrap (fun b => [SIfSome (in_f i) (SInOut (EAddr (in_f i)) (EAddr (out_f i)) :: b)]) (block f)).
    Proof.
      assert (I := field_ident i). assert (K := ident_key _ I).
      eapply (ag_if_pre _ [TId "in"; TOp "."; TId (field_name self i); TOp "!="; TId "nil"]); [exact (f_cond _ I)| |exact (f_inout _ I)| |exact (blocks f)].
      - apply (w_eq false [TId "in"; TOp "."; TId (field_name self i)] _ [TId "nil"]); [apply o_expr, o_field; [reflexivity|exact K]|apply e_id; reflexivity].
      - apply g_inout; [apply (e_addr [TId "in"; TOp "."; TId (field_name self i)])|apply (e_addr [TId "out"; TOp "."; TId (field_name self i)])]; apply o_expr, o_field; try reflexivity; exact K.
    Qed.
    Lemma into_field i : is_stmt [TId "in"; TOp "."; TId (field_name self i); TOp "."; TId "DeepCopyInto"; TOp "("; TOp "&"; TId "out"; TOp "."; TId (field_name self i); TOp ")"] (tree (SInto (in_f i) (EAddr (out_f i)))).
    Proof.
      assert (K := ident_key _ (field_ident i)). apply g_expr; [reflexivity|]. apply (o_into [TId "in"; TOp "."; TId (field_name self i)] _ [TOp "&"; TId "out"; TOp "."; TId (field_name self i)]); [apply o_field; [reflexivity|exact K]|].
      apply (e_addr [TId "out"; TOp "."; TId (field_name self i)]), o_expr, o_field; [reflexivity|exact K].
    Qed.
    Definition agrees_f (t : option (list string * bool)) (r : option (list stmt * list derr * bool)) : Prop :=
      match r with Some (ss, es, b) => exists ls, t = Some (ls, b) /\ agrees (Some ls) (Some (ss, es)) | None => t = None end.
    Lemma ag_field i f : agrees_f (field_text decls field_name self n tblock i f) (gen_field decls n block i f).
    Proof.
      assert (I := field_ident i). assert (K := ident_key _ I).
      assert (Go : forall t r, agrees t r -> agrees_f (match t with Some l => Some (l, false) | None => None end) (match r with Some (ss, es) => Some (ss, es, false) | None => None end)).
      { intros t [[ss es]|]; [|intros ->; reflexivity]. intros (ls & -> & A). exists ls. split; [reflexivity|]. exists ls. auto. }
      assert (Wi : agrees (line ("in." ++ field_name self i ++ ".DeepCopyInto(&out." ++ field_name self i ++ ")")) (Some ([SInto (in_f i) (EAddr (out_f i))], []))).
      { eapply ag_lit; [exact (f_into _ I)|apply into_field]. }
      assert (Of : forall s, is_keyword s = false -> is_operand [TId s; TOp "."; TId (field_name self i)] (XSel (XId s) (field_name self i))) by (intros s Ks; now apply o_field).
      unfold field_text, gen_field, wr. destruct (has_any decls f).
      - destruct (result_ptr decls n f (has_copy decls f)) as [p|]; [|reflexivity]. apply Go. destruct (is_ptr f); [apply ag_delegate|]. destruct (Bool.eqb p false); [|exact Wi].
        eapply ag_lit; [exact (f_copy _ I)|]. apply (g_set1 false); [reflexivity|apply o_expr, Of; reflexivity|]. apply o_expr, (o_copy [TId "in"; TOp "."; TId (field_name self i)]), Of. reflexivity.
      - destruct (by_ref (under decls f)); [apply Go, ag_delegate|]. destruct (under decls f) as [[|] s|m|e|e|a e|fs|s]; try (exists []; split; [reflexivity|apply ag_none]).
        destruct (shallow decls n f) as [[|]|]; [|apply (Go _ (Some ([SInto (in_f i) (EAddr (out_f i))], []))); exact Wi|reflexivity].
        apply (Go _ (Some ([SSet (out_f i) (ERead (in_f i))], []))). eapply ag_lit; [exact (f_set _ I)|]. apply (g_set1 false); [reflexivity| |]; apply o_expr, Of; reflexivity.
    Qed.
    Lemma ag_fields i fs : agrees (fields_text decls field_name self n tblock i fs) (gen_fields decls n block i fs).
    Proof.
      revert i. induction fs as [|f fs IH]; intros i; [apply ag_none|]. cbn [fields_text gen_fields]. assert (A := ag_field i f). destruct (gen_field decls n block i f) as [[[ss es] [|]]|].
      - destruct A as (ls & -> & A). exact A.
      - destruct A as (ls & -> & A). apply ag_seq; [exact A|apply IH].
      - cbn in A. rewrite A. reflexivity.
    Qed.
    Lemma copy_in : is_stmt ([TOp "*"; TId "out"] ++ TOp "=" :: [TId "in"; TOp "."; TId "DeepCopy"; TOp "("; TOp ")"]) (tree (SSet star_out (ECopyVar "in"))).
    Proof. apply out_set, o_expr, (o_copy [TId "in"]), o_id. reflexivity. Qed.
    Lemma ag_step t : agrees (step_text decls qualifier bare field_name string_of self n tblock t) (gen_step decls n block t).
    Proof.
      assert (C : forall es, agrees (line "*out = in.DeepCopy()") (Some ([SSet star_out (ECopyVar "in")], es))) by (intros es; eapply ag_lit; [|exact copy_in]; lit).
      assert (St : forall es, agrees (line "*out = *in") (Some ([SSet star_out (ERead star_in)], es))).
      { intros es. eapply (ag_lit _ _ _ ([TOp "*"; TId "out"] ++ TOp "=" :: [TOp "*"; TId "in"])); [lit|]. apply out_set, e_star, e_id. reflexivity. }
      unfold step_text, gen_step, wr, fail. destruct (negb (is_ptr (under decls t)) && has_any decls t); [apply C|]. destruct (under decls t) as [[|] s|m|e|e|a e|fs|s]; try apply ag_none.
      - apply ag_seq; [destruct (has_copy decls t); [apply C|apply ag_none]|apply St].
      - apply ag_pointer.
      - apply ag_slice.
      - apply ag_map.
      - unfold struct_text, gen_struct, wr. apply ag_seq; [apply St|apply ag_fields].
    Qed.
  End Step.
  Lemma ag_block n t : agrees (block_text decls qualifier bare field_name string_of self n t) (gen_block decls n t).
  Proof. revert t. induction n as [|n IH]; intros t; [reflexivity|]. cbn [block_text gen_block]. apply ag_step. exact IH. Qed.
End Bodies.
