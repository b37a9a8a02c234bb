(** A concrete statement for the examples, from its text to the grammar. *)

From Verif Require Import ModelParser SpecParser SpecTokens SpecIdent LemmasBase LemmasIdent LemmasDemo LemmasDemoTyped LemmasDemoEngine LemmasDemoScan LemmasDemoParser LemmasGrammarLink.

Ltac demo_gap := repeat (apply gap_space; [reflexivity|]); apply gap_nil.
Ltac demo_runes_ok := repeat (constructor; [first [left; reflexivity|right; left; reflexivity|right; right; left; reflexivity|right; right; right; reflexivity]|]); constructor.
Ltac demo_no := cbn; try exact Logic.I; unfold name_rune; vm_compute; intuition discriminate.
Ltac demo_word sp n more :=
  lazymatch goal with |- tokens ?t _ _ => change t with (runes sp ++ runes n ++ runes more) end;
  eapply (tks_more (runes sp) (runes n) _ (runes more) (runes more)); [demo_gap|apply lx_name; [left; reflexivity|demo_runes_ok|demo_no|try (intros _ _; demo_no)]|].
Ltac demo_punct sp n more :=
  lazymatch goal with |- tokens ?t _ _ => change t with (runes sp ++ runes n ++ runes more) end;
  eapply (tks_more (runes sp) (runes n) _ (runes more) (runes more)); [demo_gap|apply lx_punct; vm_compute; tauto|].
Ltac demo_op sp n more :=
  lazymatch goal with |- tokens ?t _ _ => change t with (runes sp ++ runes n ++ runes more) end;
  eapply (tks_more (runes sp) (runes n) _ (runes more) (runes more)); [demo_gap|apply lx_op; vm_compute; intuition discriminate|].
Ltac demo_number sp n more :=
  lazymatch goal with |- tokens ?t _ _ => change t with (runes sp ++ runes n ++ runes more) end;
  eapply (tks_more (runes sp) (runes n) _ (runes more) (runes more));
    [demo_gap|refine (lx_integer [] 1 (str n) (runes more) _ _ _ _ _); [constructor|discriminate|repeat (constructor; [vm_compute; split; discriminate|]); constructor|reflexivity|vm_compute; intuition discriminate]|].
Ltac demo_end sp more :=
  lazymatch goal with |- tokens ?t _ _ => change t with (runes sp ++ runes ";"%string ++ runes more) end;
  eapply (tks_more (runes sp) (runes ";"%string) _ (runes more) (runes more)); [demo_gap|apply lx_end|].

Definition demo_where : list tokval :=
  [TName (str "a") false; TRune 43; TInteger 2; TRune 42; TName (str "b") false; TRune 60; TInteger 9; TName (str "AND") false;
   TName (str "not") false; TName (str "c") false].
Definition demo_delete : String.string := "DELETE FROM s.t WHERE a + 2 * b < 9 AND not c;COMMIT".
Definition demo_condition : String.string := "a + 2 * b < 9 AND not c;COMMIT".
Definition demo_delete_tokens : list tokval :=
  [TName (str "DELETE") false; TName (str "FROM") false; TName (str "s") false; TRune 46; TName (str "t") false; TName (str "WHERE") false] ++ demo_where.

Lemma demo_condition_text : statement_text (runes demo_condition) demo_where (runes "COMMIT").
Proof.
  apply stx_end. cbn [demo_where app]. unfold demo_condition.
  demo_word ""%string "a"%string " + 2 * b < 9 AND not c;COMMIT"%string. demo_op " "%string "+"%string " 2 * b < 9 AND not c;COMMIT"%string. demo_number " "%string "2"%string " * b < 9 AND not c;COMMIT"%string.
  demo_op " "%string "*"%string " b < 9 AND not c;COMMIT"%string. demo_word " "%string "b"%string " < 9 AND not c;COMMIT"%string. demo_op " "%string "<"%string " 9 AND not c;COMMIT"%string. demo_number " "%string "9"%string " AND not c;COMMIT"%string.
  demo_word " "%string "AND"%string " not c;COMMIT"%string. demo_word " "%string "not"%string " c;COMMIT"%string. demo_word " "%string "c"%string ";COMMIT"%string. demo_end ""%string "COMMIT"%string. constructor.
Qed.
Lemma demo_delete_text : statement_text (runes demo_delete) demo_delete_tokens (runes "COMMIT").
Proof.
  apply stx_end. unfold demo_delete_tokens, demo_delete. cbn [demo_where app].
  demo_word ""%string "DELETE"%string " FROM s.t WHERE a + 2 * b < 9 AND not c;COMMIT"%string. demo_word " "%string "FROM"%string " s.t WHERE a + 2 * b < 9 AND not c;COMMIT"%string.
  demo_word " "%string "s"%string ".t WHERE a + 2 * b < 9 AND not c;COMMIT"%string. demo_punct ""%string "."%string "t WHERE a + 2 * b < 9 AND not c;COMMIT"%string.
  demo_word ""%string "t"%string " WHERE a + 2 * b < 9 AND not c;COMMIT"%string. demo_word " "%string "WHERE"%string " a + 2 * b < 9 AND not c;COMMIT"%string.
  demo_word " "%string "a"%string " + 2 * b < 9 AND not c;COMMIT"%string. demo_op " "%string "+"%string " 2 * b < 9 AND not c;COMMIT"%string. demo_number " "%string "2"%string " * b < 9 AND not c;COMMIT"%string.
  demo_op " "%string "*"%string " b < 9 AND not c;COMMIT"%string. demo_word " "%string "b"%string " < 9 AND not c;COMMIT"%string. demo_op " "%string "<"%string " 9 AND not c;COMMIT"%string. demo_number " "%string "9"%string " AND not c;COMMIT"%string.
  demo_word " "%string "AND"%string " not c;COMMIT"%string. demo_word " "%string "not"%string " c;COMMIT"%string. demo_word " "%string "c"%string ";COMMIT"%string. demo_end ""%string "COMMIT"%string. constructor.
Qed.

(** The table of identifiers behind it. *)
Definition demo_names : idtable := s_ids (p_scanner (demo_after 1 (demo_parser demo_delete))).
Lemma demo_real : real idt_init.
Proof. exists []. constructor. Qed.
Lemma demo_names_eq : demo_names = register demo_delete_tokens idt_init.
Proof. vm_compute. reflexivity. Qed.
Lemma demo_names_real : real demo_names.
Proof. rewrite demo_names_eq. apply register_spec, demo_real. Qed.

Definition demo_grouped (a b c : Z) : expr :=
  BinaryExpr AndOp (BinaryExpr LessThanOp (BinaryExpr AddOp (Ref [a]) (BinaryExpr MultiplyOp (Literal (VInt 2)) (Ref [b]))) (Literal (VInt 9)))
    (UnaryExpr NotOp (Ref [c])).
Ltac demo_tokens := repeat (constructor; [first [apply ti_end|apply ti_word; [vm_compute; reflexivity|reflexivity]|apply ti_name; [vm_compute; reflexivity|discriminate]|constructor]|]); constructor.
Ltac demo_infix t op := match goal with |- sub _ _ _ ?ts => idtac end; eapply (sub_infix _ _ t op _ _ _ [_] _); [vm_compute; tauto|constructor; constructor|].
Lemma demo_sub id name a b c : exists e0,
  sub id name e0 [KIdent a; KRune 43; KInteger 2; KRune 42; KIdent b; KRune 60; KInteger 9; KReserved kAND; KReserved kNOT; KIdent c] /\
  words (demo_grouped a b c) = words e0.
Proof.
  eexists. split.
  - refine (sub_infix _ _ (KRune tPlus) AddOp false (Ref [a]) _ [_] _ _ _ _); [vm_compute; tauto|apply op_ref; constructor|].
    refine (sub_infix _ _ (KRune tStar) MultiplyOp false (Literal (VInt 2)) _ [_] _ _ _ _); [vm_compute; tauto|apply op_integer|].
    refine (sub_infix _ _ (KRune tLess) LessThanOp true (Ref [b]) _ [_] _ _ _ _); [vm_compute; tauto|apply op_ref; constructor|].
    refine (sub_infix _ _ (KReserved kAND) AndOp true (Literal (VInt 9)) _ [_] _ _ _ _); [vm_compute; tauto|apply op_integer|].
    apply sub_not, sub_operand, op_ref. constructor.
  - reflexivity.
Qed.
Lemma demo_tight a b c : tight (demo_grouped a b c).
Proof. cbn. repeat split; lia. Qed.

Lemma demo_delete_says : text_says demo_names demo_delete_tokens
  (SDelete {| tn_database := 0; tn_schema := 47; tn_table := 48 |} (Some (demo_grouped 49 50 51))).
Proof.
  eexists. split; [unfold demo_delete_tokens, demo_where; cbn [app]; demo_tokens|].
  destruct (demo_sub (number demo_names) (idString demo_names) 49 50 51) as (e0 & S0 & W).
  apply (say_delete _ _ _ _ [KIdent 47; KRune 46; KIdent 48] (KReserved kWHERE :: _)); [constructor|]. constructor. econstructor; [exact S0|apply demo_tight|exact W].
Qed.
Definition demo_names' : idtable := register demo_where idt_init.
Lemma demo_condition_is : text_is demo_names' demo_where (demo_grouped 47 48 49).
Proof.
  destruct (demo_sub (number demo_names') (idString demo_names') 47 48 49) as (e0 & S0 & W).
  exists e0. split; [|split; [apply demo_tight|exact W]]. eexists. split; [|exact S0]. unfold demo_where. demo_tokens.
Qed.

(** Not every expression is grouped as the table says. *)
Lemma not_tight : ~ (forall (X : FloatLib) (L : CaseLib) (U : RuneLib) (B : BufLib) (P : PrintLib), RuneLib_scan U -> forall input p e p',
  parsing input p -> ParseExpr p = Done e p' -> tight e).
Proof.
  intros H. destruct (ParseExpr (demo_parser "NOT a IS NULL = b")) as [e p'|p'|p'|] eqn:E; try (vm_compute in E; discriminate E).
  pose proof (H _ _ _ _ demo_P demo_U_scan _ _ _ _ (demo_parsing _) E) as T. assert (K : demo_expr "NOT a IS NULL = b" = Some e) by (unfold demo_expr; now rewrite E).
  vm_compute in K. injection K as <-. destruct T as (_ & _ & _ & _ & _ & T). vm_compute in T. now apply T.
Qed.
Lemma left_not_tight : ~ (forall (X : FloatLib) (L : CaseLib) (U : RuneLib) (B : BufLib) (P : PrintLib), RuneLib_scan U -> forall input p op eop l s p',
  parsing input p -> ParseExpr p = Done (Subquery op eop (Some l) s) p' -> tight l).
Proof.
  intros H. destruct (ParseExpr (demo_parser "(a * b + c) IN (VALUES (1))")) as [e p'|p'|p'|] eqn:E; try (vm_compute in E; discriminate E).
  assert (K : demo_expr "(a * b + c) IN (VALUES (1))" = Some e) by (unfold demo_expr; now rewrite E).
  vm_compute in K. injection K as <-.
  pose proof (H _ _ _ _ demo_P demo_U_scan _ _ _ _ _ _ _ (demo_parsing _) E) as T. destruct T as (_ & _ & _ & _ & T & _). vm_compute in T. discriminate T.
Qed.
