(** Property C65: what cannot be printed, parser/sql/*.go (String). *)

From Verif Require Import ModelPrint SpecBreaks SpecParser SpecTokens LemmasDemo LemmasDemoTyped LemmasDemoEngine LemmasDemoScan LemmasDemoParser LemmasGrammarLink LemmasDemoGrammar LemmasDemoPrint LemmasBreaks LemmasDemoBreaks.

(** C65.  The [String] method of a statement, or of a part of one, panics exactly if
    the part [breaks], and with that error: it is flawed itself, or a part is whose
    [String] method is called.  It does not depend on the names. *)
Theorem C65_breaks : forall (P : PrintLib) T x w, part_text T x = PPanic w <-> SpecBreaks.breaks x w.
Proof. exact @part_breaks. Qed.
Print Assumptions C65_breaks.

(** It returns a text exactly if neither is so. *)
Theorem C65_writable : forall (P : PrintLib) T x, (exists t, part_text T x = PText t) <-> SpecBreaks.writable x.
Proof. exact @part_fine. Qed.
Print Assumptions C65_writable.

Example C65_case :
  @part_text demo_P demo_table (OfStmt demo_broken) = PPanic (str "runtime error: index out of range [0] with length 0") /\
  SpecBreaks.breaks (OfStmt demo_broken) (behind_end 0) /\
  @part_text demo_P demo_table (OfKey demo_short_key) = PPanic (str "runtime error: index out of range [1] with length 1") /\
  flawed (OfKey demo_short_key) (behind_end 1) /\
  @part_text demo_P demo_table (OfStmt demo_short_table) = PPanic (str "runtime error: index out of range [1] with length 1") /\
  flawed (OfStmt demo_short_table) (behind_end 1) /\
  @part_text demo_P demo_table (OfExpr demo_reported) = PText (str "(1 + %!s(PANIC=String method: runtime error: index out of range [0] with length 0))") /\
  SpecBreaks.writable (OfExpr demo_reported).
Proof. exact demo_breaks_ok. Qed.

(** Of the statements that [Parse] returns only INSERT with DEFAULT panics, with a
    nil dereference; no part of any statement does, at any depth, but DEFAULT. *)
Theorem C65_parsed : forall (X : FloatLib) (L : CaseLib) (U : RuneLib) (B : BufLib) (P : PrintLib), RuneLib_scan U -> forall input p s p',
  parsing input p -> p_unscanned p = 0%nat -> p_failed p = false -> real (s_ids (p_scanner p)) ->
  Parse p = PStmt (Some s) p' ->
  (forall y, within y (OfStmt s) -> y = OfStmt s \/ y = OfNothing \/ SpecBreaks.writable y) /\
  (forall w, SpecBreaks.breaks (OfStmt s) w <-> w = nil_method /\ defaulted s).
Proof. exact @parsed_sturdy. Qed.
Print Assumptions C65_parsed.

Example C65_insert :
  parsing (runes demo_insert_default) (demo_parser demo_insert_default) /\ p_unscanned (demo_parser demo_insert_default) = 0%nat /\
  p_failed (demo_parser demo_insert_default) = false /\ real (s_ids (p_scanner (demo_parser demo_insert_default))) /\
  demo_parses 1 (demo_parser demo_insert_default) = [Got (Some demo_insert_stmt)] /\ defaulted demo_insert_stmt /\
  @part_text demo_P demo_table (OfStmt demo_insert_stmt) = PPanic (str "runtime error: invalid memory address or nil pointer dereference").
Proof.
  split; [apply demo_parsing|]. split; [reflexivity|]. split; [reflexivity|]. split; [apply demo_real|]. split; [vm_compute; reflexivity|].
  split; [|vm_compute; reflexivity]. eexists. split; [right; left; reflexivity|]. right. now left.
Qed.

(** So not every statement that is parsed can be printed. *)
Theorem C65_refuted : ~ (forall (X : FloatLib) (L : CaseLib) (U : RuneLib) (B : BufLib) (P : PrintLib), RuneLib_scan U -> forall input p s p',
  parsing input p -> p_unscanned p = 0%nat -> p_failed p = false -> real (s_ids (p_scanner p)) ->
  Parse p = PStmt (Some s) p' -> SpecBreaks.writable (OfStmt s)).
Proof. exact not_all_printed. Qed.
Print Assumptions C65_refuted.
