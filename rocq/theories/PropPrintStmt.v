(** Property C53: a statement that is printed and read back, parser/sql/*.go
    (String) and parser/parser.go:30-61 (Parse). *)

From Verif Require Import ModelPrint SpecPrint SpecIdent LemmasIdent LemmasPrint LemmasPrintStmt LemmasDemo LemmasDemoTyped LemmasDemoEngine LemmasDemoScan LemmasDemoParser LemmasDemoPrint LemmasDemoPrintStmt.

(** C53.  A plain statement is returned but for parentheses, by every parser that
    has its printed form left to read; nothing is left then. *)
Theorem C53_round_trip : forall (X : FloatLib) (L : CaseLib) (U : RuneLib) (B : BufLib) (P : PrintLib), RuneLib_scan U -> CaseLib_ok L ->
  forall T s, real T -> plain_stmt T s -> returns_stmt T s.
Proof. exact @statement_round_trip. Qed.
Print Assumptions C53_round_trip.

Example C53_case :
  let _ := demo_X in let _ := demo_L in let _ := demo_U in let _ := demo_B in let _ := demo_P in
  RuneLib_scan demo_U /\ CaseLib_ok demo_L /\ real demo_table /\
  plain_stmt demo_table demo_query /\ stmtString demo_table demo_query = PText (str demo_query_text) /\
  demo_read_stmt (demo_reader demo_table (runes demo_query_text)) = Some (strip_stmt demo_query, true) /\
  plain_stmt demo_table demo_create /\ stmtString demo_table demo_create = PText (str demo_create_text) /\
  demo_read_stmt (demo_reader demo_table (runes demo_create_text)) = Some (strip_stmt demo_create, true) /\
  parsing (runes demo_create_text) (demo_reader demo_table (runes demo_create_text)).
Proof.
  intros. split; [exact demo_U_scan|]. split; [exact CaseLib_ascii_ok|]. split; [exact demo_table_real|].
  split; [exact demo_query_ok|]. split; [vm_compute; reflexivity|]. split; [vm_compute; reflexivity|].
  split; [exact demo_create_ok|]. split; [vm_compute; reflexivity|]. split; [vm_compute; reflexivity|]. apply demo_reader_parsing.
Qed.

(** Not every statement that [Parse] returns is printed so that it is read back:
    none of those that it returns for the texts of [demo_losses] is. *)
Theorem C53_refuted : ~ (forall (X : FloatLib) (L : CaseLib) (U : RuneLib) (B : BufLib) (P : PrintLib), RuneLib_scan U -> CaseLib_ok L ->
  forall input p s p', parsing input p -> real (s_ids (p_scanner p)) -> Parse p = PStmt (Some s) p' -> returns_stmt (s_ids (p_scanner p')) s).
Proof. exact demo_statements_lost. Qed.
Print Assumptions C53_refuted.

Theorem C53_losses : Forall demo_lost demo_losses.
Proof. exact demo_losses_ok. Qed.
Print Assumptions C53_losses.
