(** Properties C44 and C52: expressions and statements are parsed as they are
    written, parser/parser.go. *)

From Verif Require Import ModelParser SpecParser SpecTokens LemmasDemo LemmasDemoTyped LemmasDemoEngine LemmasDemoScan LemmasDemoParser LemmasRegroup LemmasGrammarLink LemmasDemoGrammar.

(** C44.  [ParseExpr] returns every expression grouped by the table of
    precedences: [text_is] is that the tokens are read from left to right as some
    expression, and that the words of this one are the same, in the same order,
    but [tight].  [T] is the table of identifiers afterwards: it has all names of
    the text, and those there were before have the numbers they had. *)
Theorem C44_expr : forall (X : FloatLib) (L : CaseLib) (U : RuneLib) (B : BufLib) (P : PrintLib), RuneLib_scan U -> forall input p vs left,
  parsing input p -> p_unscanned p = 0%nat -> real (s_ids (p_scanner p)) ->
  statement_text (rest (p_scanner p)) vs left ->
  exists T, real T /\ later (s_ids (p_scanner p)) T /\ (forall n q, In (TName n q) vs -> knows T n q) /\
    forall e, text_is T vs e -> exists p', ParseExpr p = Done e p' /\ s_ids (p_scanner p') = T.
Proof. exact @expr_text. Qed.
Print Assumptions C44_expr.

(** There is such an expression whenever the tokens can be read from left to right;
    and only one. *)
Theorem C44_exists : forall (L : CaseLib) T vs e0,
  text_reads T vs e0 -> exists e, text_is T vs e.
Proof. exact @text_grouped. Qed.
Print Assumptions C44_exists.

Theorem C44_one : forall (L : CaseLib) T vs e e', text_is T vs e -> text_is T vs e' -> e = e'.
Proof. exact @unambiguous_expr. Qed.
Print Assumptions C44_one.

(** The words and the table say how to group. *)
Theorem C44_unique : forall e1 e2, tight e1 -> tight e2 -> words e1 = words e2 -> e1 = e2.
Proof. exact tight_unique. Qed.
Print Assumptions C44_unique.

(** What is read from left to right is regrouped by [adjustPrecedence]. *)
Theorem C44_adjust : forall e0, read_right e0 ->
  exists e, tight e /\ words e = words e0 /\ adjustPrecedence (8 * expr_size e0) e0 = Some e.
Proof. exact adjust_tight. Qed.
Print Assumptions C44_adjust.

Example C44_case :
  parsing (runes demo_condition) (demo_parser demo_condition) /\ p_unscanned (demo_parser demo_condition) = 0%nat /\
  real (s_ids (p_scanner (demo_parser demo_condition))) /\
  statement_text (rest (p_scanner (demo_parser demo_condition))) demo_where (runes "COMMIT") /\
  text_is demo_names' demo_where (demo_grouped 47 48 49) /\
  demo_expr demo_condition = Some (demo_grouped 47 48 49).
Proof.
  split; [apply demo_parsing|]. split; [reflexivity|]. split; [apply demo_real|]. split; [exact demo_condition_text|].
  split; [exact demo_condition_is|]. vm_compute. reflexivity.
Qed.
Example C44_parentheses :
  let a := Ref [47] in let b := Ref [48] in let c := Ref [49] in
  demo_expr "a - (b - c) - f(a * b + c)" =
    Some (BinaryExpr SubtractOp (BinaryExpr SubtractOp a (UnaryExpr NoOp (BinaryExpr SubtractOp b c)))
            (SExpr 50 [BinaryExpr AddOp (BinaryExpr MultiplyOp a b) c])).
Proof. vm_compute. reflexivity. Qed.

(** The left operand of IN is left as it was read. *)
Theorem C44_left_operand_refuted :
  ~ (forall (X : FloatLib) (L : CaseLib) (U : RuneLib) (B : BufLib) (P : PrintLib), RuneLib_scan U -> forall input p op eop l s p',
     parsing input p -> ParseExpr p = Done (Subquery op eop (Some l) s) p' -> tight l).
Proof. exact left_not_tight. Qed.
Print Assumptions C44_left_operand_refuted.

Example C44_in :
  demo_expr "(a * b + c) IN (VALUES (1))" =
    Some (Subquery Any EqualOp (Some (UnaryExpr NoOp (BinaryExpr MultiplyOp (Ref [47]) (BinaryExpr AddOp (Ref [48]) (Ref [49])))))
            (SValues [[Literal (VInt 1)]])).
Proof. vm_compute. reflexivity. Qed.

(** And not everything that is accepted is grouped: an operator behind IS NULL is
    not expected, but after NOT it is accepted and takes the negation. *)
Theorem C44_not_refuted :
  ~ (forall (X : FloatLib) (L : CaseLib) (U : RuneLib) (B : BufLib) (P : PrintLib), RuneLib_scan U -> forall input p e p',
     parsing input p -> ParseExpr p = Done e p' -> tight e).
Proof. exact not_tight. Qed.
Print Assumptions C44_not_refuted.

Example C44_not :
  demo_expr "NOT a IS NULL = b" = Some (BinaryExpr EqualOp (UnaryExpr NotOp (SExpr 48 [Ref [47]])) (Ref [49])).
Proof. vm_compute. reflexivity. Qed.
Example C44_is_null :
  demo_expr "a + b IS NULL" = Some (BinaryExpr AddOp (Ref [47]) (SExpr 49 [Ref [48]])) /\
  demo_parses 2 (demo_parser "DELETE FROM t WHERE a IS NULL AND b; COMMIT") = [GotError; Got (Some SCommit)].
Proof. split; vm_compute; reflexivity. Qed.

(** C52.  [Parse] returns every statement of the grammar as it is written, and the
    text behind its semicolon is left.  [text_says] is that the tokens say the
    statement, with the numbers of the names in [T]. *)
Theorem C52_parse : forall (X : FloatLib) (L : CaseLib) (U : RuneLib) (B : BufLib) (P : PrintLib), RuneLib_scan U -> forall input p vs left,
  parsing input p -> p_unscanned p = 0%nat -> p_failed p = false -> real (s_ids (p_scanner p)) ->
  statement_text (rest (p_scanner p)) vs left ->
  exists T, real T /\ later (s_ids (p_scanner p)) T /\ (forall n q, In (TName n q) vs -> knows T n q) /\
    forall s, text_says T vs s ->
    exists p', Parse p = PStmt (Some s) p' /\ s_ids (p_scanner p') = T /\ rest (p_scanner p') = left /\ p_unscanned p' = 0%nat /\ p_failed p' = false.
Proof. exact @parse_text. Qed.
Print Assumptions C52_parse.

(** No text says two statements. *)
Theorem C52_one : forall (X : FloatLib) (L : CaseLib) (P : PrintLib) T vs s s', text_says T vs s -> text_says T vs s' -> s = s'.
Proof. exact @unambiguous. Qed.
Print Assumptions C52_one.

Example C52_case :
  parsing (runes demo_delete) (demo_parser demo_delete) /\ p_unscanned (demo_parser demo_delete) = 0%nat /\
  p_failed (demo_parser demo_delete) = false /\ real (s_ids (p_scanner (demo_parser demo_delete))) /\
  statement_text (rest (p_scanner (demo_parser demo_delete))) demo_delete_tokens (runes "COMMIT") /\
  real demo_names /\
  text_says demo_names demo_delete_tokens (SDelete {| tn_database := 0; tn_schema := 47; tn_table := 48 |} (Some (demo_grouped 49 50 51))) /\
  demo_parses 3 (demo_parser demo_delete) =
    [Got (Some (SDelete {| tn_database := 0; tn_schema := 47; tn_table := 48 |} (Some (demo_grouped 49 50 51)))); Got (Some SCommit); GotEOF].
Proof.
  split; [apply demo_parsing|]. split; [reflexivity|]. split; [reflexivity|]. split; [apply demo_real|]. split; [exact demo_delete_text|].
  split; [exact demo_names_real|]. split; [exact demo_delete_says|]. vm_compute. reflexivity.
Qed.
