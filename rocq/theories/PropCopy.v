(** Property C62: COPY and the data behind it, parser/parser.go and
    parser/scanner/scanner.go. *)

From Verif Require Import ModelParser SpecParser SpecTokens SpecCopy LemmasDemo LemmasDemoTyped LemmasDemoEngine LemmasDemoScan LemmasDemoParser LemmasGrammarLink LemmasDemoGrammar LemmasCopy LemmasDemoCopy.

(** C62.  A text that is a COPY is parsed as the COPY it says.  Its data begin
    behind the first newline: they are an end of the input, their line is the one
    counted from its beginning, and the parser goes on at what is left. *)
Theorem C62_copy : forall (X : FloatLib) (L : CaseLib) (U : RuneLib) (B : BufLib) (P : PrintLib), RuneLib_scan U -> forall input p vs b data left,
  parsing input p -> p_unscanned p = 0%nat -> p_failed p = false -> real (s_ids (p_scanner p)) ->
  copy_text (rest (p_scanner p)) vs b data left ->
  exists T, real T /\ later (s_ids (p_scanner p)) T /\ (forall n q, In (TName n q) vs -> knows T n q) /\
    forall tn cols d, text_copies T vs tn cols d -> given d = b ->
    exists p' before, Parse p = PStmt (Some (SCopy tn cols (line_behind before) (delimiter d))) p' /\ input = before ++ data /\
      s_ids (p_scanner p') = T /\ rest (p_scanner p') = left /\ p_unscanned p' = 0%nat /\ p_failed p' = false.
Proof. exact @copy_complete. Qed.
Print Assumptions C62_copy.

(** Nothing else is parsed as a COPY. *)
Theorem C62_only : forall (X : FloatLib) (L : CaseLib) (U : RuneLib) (B : BufLib) (P : PrintLib), RuneLib_scan U -> forall input p tn cols line d p',
  parsing input p -> p_unscanned p = 0%nat -> p_failed p = false -> real (s_ids (p_scanner p)) ->
  Parse p = PStmt (Some (SCopy tn cols line d)) p' ->
  exists vs b data before, copy_text (rest (p_scanner p)) vs (given b) data (rest (p_scanner p')) /\ text_copies (s_ids (p_scanner p')) vs tn cols b /\
    d = delimiter b /\ input = before ++ data /\ line = line_behind before /\ p_unscanned p' = 0%nat.
Proof. exact @copy_sound. Qed.
Print Assumptions C62_only.

(** The reader that comes with the COPY reads, rune by rune, what is left to the
    parser, which goes on behind what was read. *)
Theorem C62_data : forall (X : FloatLib) (L : CaseLib) (U : RuneLib) (B : BufLib) (P : PrintLib), RuneLib_scan U -> forall input p tn cols line d p' u v,
  parsing input p -> p_unscanned p = 0%nat -> p_failed p = false -> real (s_ids (p_scanner p)) ->
  Parse p = PStmt (Some (SCopy tn cols line d)) p' -> rest (p_scanner p') = u ++ v ->
  exists q, data_read p' u q /\ rest (p_scanner q) = v /\ s_ids (p_scanner q) = s_ids (p_scanner p') /\ p_unscanned q = 0%nat /\
    (v = [] -> fst (runeReaderReadRune (p_scanner q)) = None).
Proof. exact @copy_data. Qed.
Print Assumptions C62_data.

Example C62_case :
  parsing (runes demo_copied) (demo_parser demo_copied) /\ p_unscanned (demo_parser demo_copied) = 0%nat /\
  p_failed (demo_parser demo_copied) = false /\ real (s_ids (p_scanner (demo_parser demo_copied))) /\
  copy_text (rest (p_scanner (demo_parser demo_copied))) demo_copied_tokens false (runes "1
2") (runes "1
2") /\
  text_copies (register demo_copied_tokens idt_init) demo_copied_tokens {| tn_database := 0; tn_schema := 0; tn_table := 47 |} [] None /\
  demo_parses 1 (demo_parser demo_copied) = [Got (Some (SCopy {| tn_database := 0; tn_schema := 0; tn_table := 47 |} [] 3 9))] /\
  line_behind (runes "COPY t FROM STDIN -- all
; note
") = 3.
Proof.
  split; [apply demo_parsing|]. split; [reflexivity|]. split; [reflexivity|]. split; [apply demo_real|]. split; [exact demo_copied_text|].
  split; [exact demo_copied_copies|]. split; vm_compute; reflexivity.
Qed.
Example C62_delimiter :
  copy_text (rest (p_scanner (demo_parser demo_copy))) demo_copy_tokens true (runes "1
2") (runes "1
2") /\
  text_copies (register demo_copy_tokens idt_init) demo_copy_tokens {| tn_database := 0; tn_schema := 47; tn_table := 48 |} [49] (Some ","%byte) /\
  demo_parses 1 (demo_parser demo_copy) = [Got (Some (SCopy {| tn_database := 0; tn_schema := 47; tn_table := 48 |} [49] 2 44))] /\
  rest (p_scanner (demo_after 1 (demo_parser demo_copy))) = runes "1
2".
Proof. split; [exact demo_copy_text|]. split; [exact demo_copy_copies|]. split; vm_compute; reflexivity. Qed.

(** Not all that reads as a COPY is parsed: behind a DELIMITER the rest of the line
    is dropped before the semicolon is looked for. *)
Theorem C62_comment_refuted : ~ (forall (X : FloatLib) (L : CaseLib) (U : RuneLib) (B : BufLib) (P : PrintLib), RuneLib_scan U -> forall input p vs left T tn cols d,
  parsing input p -> p_unscanned p = 0%nat -> p_failed p = false -> real (s_ids (p_scanner p)) ->
  statement_text (rest (p_scanner p)) vs left -> real T -> later (s_ids (p_scanner p)) T -> text_copies T vs tn cols d ->
  exists s p', Parse p = PStmt s p').
Proof. exact not_all_copied. Qed.
Print Assumptions C62_comment_refuted.

(** And what is parsed as a COPY does not always read as one: the semicolon may be
    found in the data. *)
Theorem C62_data_refuted : ~ (forall (X : FloatLib) (L : CaseLib) (U : RuneLib) (B : BufLib) (P : PrintLib), RuneLib_scan U -> forall input p tn cols line d p',
  parsing input p -> p_unscanned p = 0%nat -> p_failed p = false -> real (s_ids (p_scanner p)) ->
  Parse p = PStmt (Some (SCopy tn cols line d)) p' ->
  exists vs left b, statement_text (rest (p_scanner p)) vs left /\ text_copies (s_ids (p_scanner p')) vs tn cols b).
Proof. exact not_only_copied. Qed.
Print Assumptions C62_data_refuted.

(** The texts of these two. *)
Example C62_comment :
  statement_text (rest (p_scanner (demo_parser demo_noted))) demo_noted_tokens (runes "
1") /\
  demo_parses 1 (demo_parser demo_noted) = [GotError].
Proof. split; [exact demo_noted_text|]. vm_compute. reflexivity. Qed.
Example C62_halved :
  demo_halved = "COPY t FROM STDIN DELIMITER ',' -
- 1
;"%string /\
  demo_parses 1 (demo_parser demo_halved) = [Got (Some (SCopy {| tn_database := 0; tn_schema := 0; tn_table := 47 |} [] 2 44))] /\
  rest (p_scanner (demo_after 1 (demo_parser demo_halved))) = [].
Proof. split; [reflexivity|]. split; vm_compute; reflexivity. Qed.
