(** Property C49: what the parser does after an error, parser/parser.go:33-97. *)

From Verif Require Import ModelParser SpecParser SpecTokens SpecRecover LemmasParserProps LemmasResume LemmasDemo LemmasDemoTyped LemmasDemoEngine LemmasDemoScan LemmasDemoParser LemmasDemoGrammar LemmasDemoRecover.

(** C49.  Where a call ends.  A statement ends with its first semicolon, the one it
    may start with left aside, or at the end of the file.  An error is reported at
    a token before that or at the semicolon itself; only in the second case the
    next call starts with the next token.  (There is a third case: a lexical error
    in front of a statement, or before the semicolon is found.  Then the next call
    does what this one was to do.) *)
Theorem C49_call : forall (X : FloatLib) (L : CaseLib) (U : RuneLib) (B : BufLib) (P : PrintLib), RuneLib_scan U -> forall input p t,
  in_step input p t ->
  match Parse p with
  | PStmt s p' => exists t0 t' k cs, starts (p_failed p) t t0 /\ in_step input p' t' /\
      t_past t' = k :: cs ++ t_past t0 /\ (tok_of k = KEnd \/ tok_of k = KEOF) /\ cs <> [] /\ ~ In KEnd (removelast (map tok_of cs)) /\
      p_failed p' = false
  | PErr p' =>
      (exists t' c cs, in_step input p' t' /\ t_past t' = c :: cs ++ t_past t /\ tok_of c = KError true /\ ~ In KEnd (map tok_of cs) /\
         (p_failed p = false -> cs = []) /\ p_failed p' = p_failed p) \/
      (exists t0 t' cs, starts (p_failed p) t t0 /\ in_step input p' t' /\
         t_past t' = cs ++ t_past t0 /\ cs <> [] /\ ~ In KEnd (removelast (tl (map tok_of cs))) /\
         p_failed p' = match t_tok t' with KEnd => false | _ => true end)
  | PEOF p' => exists t', in_step input p' t' /\ t_tok t' = KEOF /\ p_failed p' = p_failed p
  | PCrash => True
  | PStuck => False
  end.
Proof. exact @call_ends. Qed.
Print Assumptions C49_call.

(** After an error inside a statement, the next call does what it does on a tape
    that stands behind the next semicolon.  (The token behind it is not the end of
    the file nor a lexical error.) *)
Theorem C49_resume : forall (X : FloatLib) (L : CaseLib) (U : RuneLib) (B : BufLib) (P : PrintLib), RuneLib_scan U -> forall input p t t',
  in_step input p t -> p_failed p = true -> behind_next t t' -> goes_on t' ->
  same input true (Parse p) (t_parse false t').
Proof. exact @resume. Qed.
Print Assumptions C49_resume.

(** And that does not depend on what was read before: parsers that have the same
    left to read return the same, now and until the end of the file.  (The escape
    sequence left out is that of C50.) *)
Theorem C49_alone : forall (X : FloatLib) (L : CaseLib) (U : RuneLib) (B : BufLib) (P : PrintLib), RuneLib_scan U -> forall input,
  (forall s, scanning input s -> ~ bad_escape (rest s)) ->
  forall p q, alike_parsers input p q -> alike_results input (Parse p) (Parse q).
Proof. exact @Parse_alike. Qed.
Print Assumptions C49_alone.

Theorem C49_all : forall (X : FloatLib) (L : CaseLib) (U : RuneLib) (B : BufLib) (P : PrintLib), RuneLib_scan U -> forall input,
  (forall s, scanning input s -> ~ bad_escape (rest s)) ->
  forall p l, to_eof p l -> forall q, alike_parsers input p q ->
  exists l', to_eof q l' /\ Forall2 (alike_results input) l l'.
Proof. exact @to_eof_alike. Qed.
Print Assumptions C49_all.

(** The statement behind the semicolon is returned, by the grammar of C52. *)
Theorem C49_text : forall (X : FloatLib) (L : CaseLib) (U : RuneLib) (B : BufLib) (P : PrintLib), RuneLib_scan U -> forall input p t t' vs left,
  in_step input p t -> p_failed p = true -> behind_next t t' -> t_ahead t' = [] ->
  real (s_ids (t_scanner t')) -> statement_text (rest (t_scanner t')) vs left ->
  exists T, real T /\ later (s_ids (t_scanner t')) T /\ (forall n q, In (TName n q) vs -> knows T n q) /\
    forall s, text_says T vs s ->
    exists p', Parse p = PStmt (Some s) p' /\ s_ids (p_scanner p') = T /\ rest (p_scanner p') = left /\ p_unscanned p' = 0%nat /\ p_failed p' = false.
Proof. exact @resume_text. Qed.
Print Assumptions C49_text.

Example C49_case :
  let p := demo_after 1 (demo_parser demo_broken) in
  let t := demo_tape_after 1 (demo_parser demo_broken) (demo_tape demo_broken) in
  let t' := demo_behind t in
  in_step (runes demo_broken) p t /\ p_failed p = true /\ behind_next t t' /\ goes_on t' /\ t_ahead t' = [] /\
  real (s_ids (t_scanner t')) /\ statement_text (rest (t_scanner t')) demo_delete_tokens (runes "COMMIT") /\
  demo_parses 4 (demo_parser demo_broken) =
    [GotError; Got (Some (SDelete {| tn_database := 0; tn_schema := 47; tn_table := 48 |} (Some (demo_grouped 49 50 51)))); Got (Some SCommit); GotEOF].
Proof.
  cbv zeta. split; [apply demo_after_in_step, demo_in_step|]. split; [vm_compute; reflexivity|].
  split; [apply demo_behind_next; vm_compute; reflexivity|]. split; [apply demo_goes_on; vm_compute; reflexivity|]. split; [vm_compute; reflexivity|].
  split; [exact demo_behind_real|]. split; [exact demo_behind_text|]. vm_compute. reflexivity.
Qed.

(* two parsers that have the same left to read, one of them new *)
Example C49_alone_case :
  let p := demo_after 1 (demo_parser "DROP;SELECT 1;COMMIT") in
  let q := demo_at (p_scanner p) in
  alike_parsers (runes "DROP;SELECT 1;COMMIT") p q /\ p_lookBack p <> p_lookBack q /\
  demo_parses 3 p = [Got (Some demo_select_1); Got (Some SCommit); GotEOF] /\ demo_parses 3 q = demo_parses 3 p /\
  (forall s, scanning (runes "DROP;SELECT 1;COMMIT") s -> ~ bad_escape (rest s)).
Proof.
  cbv zeta. split; [apply demo_alike; [apply demo_after_parsing, demo_parsing|vm_compute; reflexivity|vm_compute; reflexivity]|].
  split; [vm_compute; discriminate|]. split; [vm_compute; reflexivity|]. split; [vm_compute; reflexivity|].
  intros s. apply (no_backslash demo_U_scan). vm_compute. intuition discriminate.
Qed.

(** After a lexical error in front of a statement the next call starts in the middle
    of that statement. *)
Theorem C49_lexical_refuted :
  ~ (forall (X : FloatLib) (L : CaseLib) (U : RuneLib) (B : BufLib) (P : PrintLib), RuneLib_scan U -> forall input p p' t t',
     parsing input p -> Parse p = PErr p' -> in_step input p' t -> t_tok t <> KEnd -> behind_next t t' -> goes_on t' ->
     same input (p_failed p') (Parse p') (t_parse false t')).
Proof. exact lexical_refuted. Qed.
Print Assumptions C49_lexical_refuted.

Example C49_lexical : demo_parses 4 (demo_parser "? COMMIT; BEGIN") = [GotError; Got (Some SCommit); Got (Some SBegin); GotEOF].
Proof. vm_compute. reflexivity. Qed.

(** After an error in the last statement the call that is to return the end of the
    file returns another error. *)
Theorem C49_last_refuted :
  ~ (forall (X : FloatLib) (L : CaseLib) (U : RuneLib) (B : BufLib) (P : PrintLib), RuneLib_scan U -> forall input p t t',
     parsing input p -> in_step input p t -> p_failed p = true -> behind_next t t' ->
     same input true (Parse p) (t_parse false t')).
Proof. exact last_refuted. Qed.
Print Assumptions C49_last_refuted.

Example C49_last : demo_parses 3 (demo_parser "DROP 1;") = [GotError; GotError; GotEOF]. Proof. vm_compute. reflexivity. Qed.

(* a semicolon too many takes the next statement with it *)
Example C49_empty : demo_parses 4 (demo_parser "BEGIN;; COMMIT; BEGIN") = [Got (Some SBegin); GotError; Got (Some SBegin); GotEOF].
Proof. vm_compute. reflexivity. Qed.
