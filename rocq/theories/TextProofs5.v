(** * The text of each method is read as its tree (for C67) *)
From Coq Require Import List String Ascii Bool Arith Lia.
From Verif Require Import GoLib DeepModel TextSpec TextModel CopiesModel TextProofs TextProofs2 TextProofs3 TextProofs4.
From Verif Require ObjectModel.
Import ListNotations.
Open Scope string_scope.
Open Scope nat_scope.
Open Scope list_scope.

Lemma scan_idle x s e ts : identifier x = true -> match s with String c _ => word_char c = false | "" => False end -> scan (x ++ s) (mkL Idle e ts) = scan s (mkL Idle true (TId x :: ts)).
Proof. destruct s as [|c r]; [contradiction|]. intros I W. now apply scan_ident. Qed.
Lemma scan_star x s e ts : identifier x = true -> match s with String c _ => word_char c = false | "" => False end -> scan (x ++ s) (mkL (After "*"%char) e ts) = scan s (mkL Idle true (TId x :: TOp "*" :: ts)).
Proof. destruct s as [|c r]; [contradiction|]. intros I W. rewrite scan_app, (ident_scan x _ false (TOp "*" :: ts) I (settled_star e ts)). now apply word_done. Qed.
Ltac idents I I' := intros ts; rewrite ?sapp_assoc;
  repeat (first [rewrite (scan_idle _ _ _ _ I) by reflexivity | rewrite (scan_star _ _ _ _ I) by reflexivity | rewrite (scan_idle _ _ _ _ I') by reflexivity
                | rewrite scan_app; match goal with |- context [scan ?l (mkL ?m ?e ?t)] => match l with String _ _ => let v := eval vm_compute in (scan l (mkL m e t)) in change (scan l (mkL m e t)) with v end end ]);
  reflexivity.

Section Methods.
  Variable decls : string -> decl.
  Variable qualifier : string -> option string.
  Variable bare : string -> string.
  Variable field_name : string -> nat -> string.
  Variable string_of : ty -> string.
  Variable word_text : ImportModel.word -> string.
  Variable N : string.
  Hypothesis bare_ident : forall n, identifier (bare n) = true.
  Hypothesis qual_ident : forall n a, qualifier n = Some a -> identifier a = true.
  Hypothesis field_ident : forall i, identifier (field_name N i) = true.
  Hypothesis IN : identifier N = true.
  Let KN : is_keyword N = false := ident_key N IN.
  Notation tree := (stmt_tree qualifier bare (field_name N)).

  Lemma type_ptr : is_type [TOp "*"; TId N] (XStar (XId N)).
  Proof. destruct (type_id N KN) as (k & H). exists (S k). intros [|n] rest Hn Hr; [lia|]. assert (X := H n rest ltac:(lia) Hr). cbn -[p_type] in *. cbn [p_type expect String.eqb Ascii.eqb Bool.eqb andthen]. rewrite X. reflexivity. Qed.
  Lemma recv_params (ptr : bool) : are_params (TId "in" :: (if ptr then [TOp "*"; TId N] else [TId N])) [receiver ptr N].
  Proof. unfold receiver. destruct ptr; [apply (pa_one "in"); [reflexivity|exact type_ptr]|apply (pa_one "in"); [reflexivity|exact (type_id N KN)]]. Qed.

  (** ** DeepCopyInto *)
  Lemma into_head_ptr : lexes (("func (in *" ++ N ++ ") DeepCopyInto(out *" ++ N ++ ") {") ++ newline) (TId "func" :: (TOp "(" :: (TId "in" :: [TOp "*"; TId N]) ++ TOp ")" :: TId "DeepCopyInto" :: TOp "(" :: (TId "out" :: [TOp "*"; TId N]) ++ TOp ")" :: [] ++ [TOp "{"])).
  Proof. idents IN IN. Qed.
  Lemma into_head_val : lexes (("func (in " ++ N ++ ") DeepCopyInto(out *" ++ N ++ ") {") ++ newline) (TId "func" :: (TOp "(" :: (TId "in" :: [TId N]) ++ TOp ")" :: TId "DeepCopyInto" :: TOp "(" :: (TId "out" :: [TOp "*"; TId N]) ++ TOp ")" :: [] ++ [TOp "{"])).
  Proof. idents IN IN. Qed.
  Lemma says_in ls gs : says ls gs -> says (["{in := &in"] ++ ls ++ ["}"]) [GBlock (GSet true [XId "in"] [XAddr (XId "in")] :: gs)].
  Proof.
    intros (T & L & S). refine (says_wrap _ ls "}" ([TOp "{"] ++ ([TId "in"] ++ TOp ":=" :: [TOp "&"; TId "in"]) ++ [TSemi]) T [TOp "}"] _ _ lexes_close L _); [intros ts; reflexivity|].
    apply (g_block ((([TId "in"] ++ TOp ":=" :: [TOp "&"; TId "in"]) ++ [TSemi]) ++ T) ([GSet true [XId "in"] [XAddr (XId "in")]] ++ gs)). apply b_app; [|exact S]. apply b_one, (g_set1 true); [reflexivity|apply e_id; reflexivity|apply e_addr, e_id; reflexivity].
  Qed.
  Definition into_lines (ptr : bool) (b : text) : text :=
    and (line "// DeepCopyInto is an autogenerated deepcopy function, copying the receiver, writing into out. in must be non-nil.")
    (and (if ptr then line ("func (in *" ++ N ++ ") DeepCopyInto(out *" ++ N ++ ") {")
          else and (line ("func (in " ++ N ++ ") DeepCopyInto(out *" ++ N ++ ") {")) (line "{in := &in"))
    (and b (and (if ptr then no_line else line "}") (line "}")))).
  Notation agrees := (agrees qualifier bare field_name N).
  Lemma into_writes ptr b ss es : agrees b (Some (ss, es)) -> exists ls, into_lines ptr b = Some ls /\ (Forall nameable (flat_map stmt_types ss) -> writes ls [into_tree qualifier bare field_name N ptr ss]).
  Proof.
    set (c := "// DeepCopyInto is an autogenerated deepcopy function, copying the receiver, writing into out. in must be non-nil.").
    intros (ls & -> & A). assert (C : writes [c] []) by (apply wt_skip; intros ts; reflexivity). assert (P := pa_one "out" _ _ eq_refl type_ptr). destruct ptr.
    - exists ([c] ++ [("func (in *" ++ N ++ ") DeepCopyInto(out *" ++ N ++ ") {")%string] ++ ls ++ ["}"]). split; [reflexivity|]. intros F.
      apply (wt_app _ [] _ [_] C), (wt_func _ _ ls (map tree ss) _ into_head_ptr (A F)). intros B HB. apply func_of; [exact (recv_params true)|reflexivity|exact P|reflexivity|exact HB].
    - exists ([c] ++ [("func (in " ++ N ++ ") DeepCopyInto(out *" ++ N ++ ") {")%string] ++ (["{in := &in"] ++ ls ++ ["}"]) ++ ["}"]). split; [unfold into_lines, line, and; cbn [app]; rewrite <- !app_assoc; reflexivity|]. intros F.
      apply (wt_app _ [] _ [_] C), (wt_func _ _ _ _ _ into_head_val (says_in ls _ (A F))). intros B HB. apply func_of; [exact (recv_params false)|reflexivity|exact P|reflexivity|exact HB].
  Qed.

  (** ** DeepCopy *)
  Lemma copy_head (ptr : bool) : let t := if ptr then ("*" ++ N)%string else N in
    lexes (("func (in " ++ t ++ ") DeepCopy() " ++ t ++ " {") ++ newline) (TId "func" :: (TOp "(" :: (TId "in" :: (if ptr then [TOp "*"; TId N] else [TId N])) ++ TOp ")" :: TId "DeepCopy" :: TOp "(" :: [] ++ TOp ")" :: (if ptr then [TOp "*"; TId N] else [TId N]) ++ [TOp "{"])).
  Proof. destruct ptr; cbv zeta; idents IN IN. Qed.
  Lemma nil_is s : is_keyword s = false -> whole ([TId s] ++ TOp "==" :: [TId "nil"]) (XEq true (XId s) (XId "nil")).
  Proof. intros K. apply (w_eq true [TId s] _ [TId "nil"]); apply e_id; [exact K|reflexivity]. Qed.
  Lemma copy_body (ptr : bool) : says ["	if in == nil { return nil }"; ("	out := new(" ++ N ++ ")")%string; "	in.DeepCopyInto(out)"; (if ptr then "	return out" else "	return *out")]
    (g_body (copy_tree N ptr)).
  Proof.
    apply (says_app ["	if in == nil { return nil }"] [_] _ [_; _; _]).
    { apply (says_line _ (TId "if" :: ([TId "in"] ++ TOp "==" :: [TId "nil"]) ++ TOp "{" :: [TId "return"; TId "nil"] ++ [TOp "}"])); [intros ts; reflexivity|]. apply g_if_any; [now apply nil_is|]. apply b_last, (g_return [TId "nil"]), w_expr, e_id. reflexivity. }
    apply (says_app [("	out := new(" ++ N ++ ")")%string] [_] _ [_; _]).
    { apply (says_line _ ([TId "out"] ++ TOp ":=" :: [TId "new"] ++ TOp "(" :: [TId N] ++ [TOp ")"])); [idents IN IN|]. apply (g_set1 true); [reflexivity|apply e_id; reflexivity|]. apply o_expr, o_call; [apply o_id; reflexivity|]. apply a_one, e_id, KN. }
    apply (says_app ["	in.DeepCopyInto(out)"] [_] _ [_]).
    { apply (says_line _ ([TId "in"] ++ TOp "." :: TId "DeepCopyInto" :: TOp "(" :: [TId "out"] ++ [TOp ")"])); [intros ts; reflexivity|]. apply g_expr; [reflexivity|]. apply o_into; [apply o_id; reflexivity|apply e_id; reflexivity]. }
    destruct ptr.
    - apply (says_line _ (TId "return" :: [TId "out"])); [intros ts; reflexivity|]. apply g_return, w_expr, e_id. reflexivity.
    - apply (says_line _ (TId "return" :: [TOp "*"; TId "out"])); [intros ts; reflexivity|]. apply g_return, w_expr, e_star, e_id. reflexivity.
  Qed.
  Lemma copy_writes ptr : writes (copy_text N ptr) [copy_tree N ptr].
  Proof.
    unfold copy_text. apply (wt_app [""] [] _ [_]); [apply wt_skip, blank_line|].
    apply (wt_app [("// DeepCopy is an autogenerated deepcopy function, copying the receiver, creating a new " ++ N ++ ".")%string] [] _ [_]).
    { apply wt_skip. apply (line_comment (" DeepCopy is an autogenerated deepcopy function, copying the receiver, creating a new " ++ N ++ ".")). rewrite !chars_app, (ident_one_line N IN). reflexivity. }
    apply (wt_app ([_] ++ [_; _; _; _] ++ ["}"]) [_] [""] []); [|apply wt_skip, blank_line]. refine (wt_func _ _ _ _ _ (copy_head ptr) (copy_body ptr) _).
    intros B HB. apply func_of; [apply recv_params|reflexivity|exact pa_nil| |exact HB]. destruct ptr; (split; [|reflexivity]); [exact type_ptr|exact (type_id N KN)].
  Qed.

  (** ** DeepCopyObject *)
  Section Object.
    Variable A : string.
    Hypothesis IA : identifier A = true.
    Lemma object_head (ptr : bool) : lexes (("func (in " ++ (if ptr then "*" else "") ++ N ++ ") DeepCopyObject() " ++ A ++ ".Object {") ++ newline)
      (TId "func" :: (TOp "(" :: (TId "in" :: (if ptr then [TOp "*"; TId N] else [TId N])) ++ TOp ")" :: TId "DeepCopyObject" :: TOp "(" :: [] ++ TOp ")" :: [TId A; TOp "."; TId "Object"] ++ [TOp "{"])).
    Proof. destruct ptr; [idents IN IA|]. change ("" ++ N ++ ") DeepCopyObject() " ++ A ++ ".Object {")%string with (N ++ ") DeepCopyObject() " ++ A ++ ".Object {")%string. idents IN IA. Qed.
    Lemma object_body (ptr : bool) : says (if ptr then ["	if c := in.DeepCopy(); c != nil {"; "		return c"; "	}"; "	return nil"] else ["	return in.DeepCopy()"]) (g_body (object_tree N ptr A)).
    Proof.
      assert (D : is_expr ([TId "in"] ++ [TOp "."; TId "DeepCopy"; TOp "("; TOp ")"]) (call (XId "in") "DeepCopy" [])) by (apply o_expr, o_copy, o_id; reflexivity). destruct ptr.
      - apply (says_app (["	if c := in.DeepCopy(); c != nil {"] ++ ["		return c"] ++ ["	}"]) [_] ["	return nil"] [_]).
        + eapply (says_wrap _ _ _ (TId "if" :: ([TId "c"] ++ TOp ":=" :: ([TId "in"] ++ [TOp "."; TId "DeepCopy"; TOp "("; TOp ")"])) ++ TSemi :: ([TId "c"] ++ TOp "!=" :: [TId "nil"]) ++ [TOp "{"]) ((TId "return" :: [TId "c"]) ++ [TSemi]) [TOp "}"]); try (intros ts; reflexivity).
          apply (g_if_first ([TId "c"] ++ TOp ":=" :: ([TId "in"] ++ [TOp "."; TId "DeepCopy"; TOp "("; TOp ")"])) _ ([TId "c"] ++ TOp "!=" :: [TId "nil"]) _ ((TId "return" :: [TId "c"]) ++ [TSemi])).
          * apply (s_set true); apply l_one, w_expr; [apply e_id; reflexivity|exact D].
          * apply (w_eq false [TId "c"] _ [TId "nil"]); apply e_id; reflexivity.
          * apply b_one, g_return, w_expr, e_id. reflexivity.
        + apply (says_line _ (TId "return" :: [TId "nil"])); [intros ts; reflexivity|]. apply g_return, w_expr, e_id. reflexivity.
      - apply (says_line _ (TId "return" :: ([TId "in"] ++ [TOp "."; TId "DeepCopy"; TOp "("; TOp ")"]))); [intros ts; reflexivity|]. apply g_return, w_expr, D.
    Qed.
    Lemma object_writes ptr : writes (object_text N ptr A) [object_tree N ptr A].
    Proof.
      replace (object_text N ptr A) with ([""] ++ ["// DeepCopyObject is an autogenerated deepcopy function, copying the receiver, creating a new runtime.Object."] ++
        (([("func (in " ++ (if ptr then "*" else "") ++ N ++ ") DeepCopyObject() " ++ A ++ ".Object {")%string] ++
          (if ptr then ["	if c := in.DeepCopy(); c != nil {"; "		return c"; "	}"; "	return nil"] else ["	return in.DeepCopy()"]) ++ ["}"]) ++ [""])) by (destruct ptr; reflexivity).
      apply (wt_app [""] [] _ [_]); [apply wt_skip, blank_line|].
      apply (wt_app ["// DeepCopyObject is an autogenerated deepcopy function, copying the receiver, creating a new runtime.Object."] [] _ [_]); [apply wt_skip; intros ts; reflexivity|].
      apply (wt_app _ [_] [""] []); [|apply wt_skip, blank_line]. refine (wt_func _ _ _ _ _ (object_head ptr) (object_body ptr) _).
      intros B HB. apply func_of; [apply recv_params|reflexivity|exact pa_nil| |exact HB]. split; [|reflexivity]. apply type_sel; [exact (ident_key A IA)|reflexivity].
    Qed.
  End Object.
End Methods.
