(** Property C55: only what the grammar allows is accepted, parser/parser.go. *)

From Verif Require Import ModelParser SpecParser SpecTokens SpecAccepts LemmasDemo LemmasDemoTyped LemmasDemoEngine LemmasDemoScan LemmasDemoParser LemmasDemoGrammar LemmasSoundLink LemmasSoundParseExpr LemmasSoundGrammar LemmasDemoSound LemmasDemoExact LemmasExactLink LemmasUnique.

(** C55.  If [Parse] returns a statement then the text in front of the parser is
    a list of tokens that says it, up to the semicolon or the end of the text, and
    nothing behind that is consumed.  [text_accepts] is [text_says] with what
    [SpecAccepts] has in addition to the grammar.  COPY is left out: it reads data
    behind the statement. *)
Theorem C55_parse : forall (X : FloatLib) (L : CaseLib) (U : RuneLib) (B : BufLib) (P : PrintLib), RuneLib_scan U -> forall input p s p',
  parsing input p -> p_unscanned p = 0%nat -> p_failed p = false -> real (s_ids (p_scanner p)) ->
  Parse p = PStmt (Some s) p' -> copies s = false ->
  exists vs left, statement_text (rest (p_scanner p)) vs left /\ text_accepts (s_ids (p_scanner p')) vs s /\
    rest (p_scanner p') = left /\ p_unscanned p' = 0%nat.
Proof. exact @parse_sound. Qed.
Print Assumptions C55_parse.

(** The same for an expression alone: the text starts with tokens that say it.  If the
    parser has no token ahead then nothing behind them is consumed. *)
Theorem C55_expr : forall (X : FloatLib) (L : CaseLib) (U : RuneLib) (B : BufLib) (P : PrintLib), RuneLib_scan U -> forall input p e p',
  parsing input p -> p_unscanned p = 0%nat -> real (s_ids (p_scanner p)) -> ParseExpr p = Done e p' ->
  exists vs left, tokens (rest (p_scanner p)) vs left /\ expr_accepts (s_ids (p_scanner p')) vs e /\
    (p_unscanned p' = 0%nat -> rest (p_scanner p') = left).
Proof. exact @expr_sound. Qed.
Print Assumptions C55_expr.

Example C55_expr_case :
  parsing (runes demo_condition) (demo_parser demo_condition) /\ p_unscanned (demo_parser demo_condition) = 0%nat /\
  real (s_ids (p_scanner (demo_parser demo_condition))) /\ exists e p', ParseExpr (demo_parser demo_condition) = Done e p'.
Proof.
  split; [apply demo_parsing|]. split; [reflexivity|]. split; [apply demo_real|]. do 2 eexists. vm_compute. reflexivity.
Qed.

(** And all of it is accepted: if the text in front of the parser has the tokens [vs]
    up to a semicolon or the end then [Parse] returns a statement if and only if
    [SpecAccepts] allows these tokens, with the numbers that the names have in the
    end; the statement is one that they say, and just they are consumed. *)
Theorem C55_exact : forall (X : FloatLib) (L : CaseLib) (U : RuneLib) (B : BufLib) (P : PrintLib), RuneLib_scan U -> forall input p vs left,
  parsing input p -> p_unscanned p = 0%nat -> p_failed p = false -> real (s_ids (p_scanner p)) ->
  statement_text (rest (p_scanner p)) vs left -> ~ In TEnd vs ->
  exists T, real T /\ later (s_ids (p_scanner p)) T /\ (forall n q, In (TName n q) vs -> knows T n q) /\
    ((exists s, text_accepts T vs s) <-> (exists s p', Parse p = PStmt (Some s) p' /\ copies s = false)) /\
    forall s p', Parse p = PStmt (Some s) p' -> copies s = false ->
      text_accepts T vs s /\ s_ids (p_scanner p') = T /\ rest (p_scanner p') = left /\ p_unscanned p' = 0%nat /\ p_failed p' = false.
Proof. exact @parse_exact. Qed.
Print Assumptions C55_exact.

(** [NOT a IS NULL = b] is not in the grammar. *)
Example C55_exact_case :
  parsing (runes demo_not) (demo_parser demo_not) /\ p_unscanned (demo_parser demo_not) = 0%nat /\
  p_failed (demo_parser demo_not) = false /\ real (s_ids (p_scanner (demo_parser demo_not))) /\
  statement_text (rest (p_scanner (demo_parser demo_not))) demo_not_tokens [] /\ ~ In TEnd demo_not_tokens /\
  exists T, text_accepts T demo_not_tokens demo_negated.
Proof.
  split; [apply demo_parsing|]. split; [reflexivity|]. split; [reflexivity|]. split; [apply demo_real|]. split; [apply demo_not_accepted|].
  split; [|apply demo_not_accepted]. unfold demo_not_tokens. cbn [In]. intuition discriminate.
Qed.

(** A text has one list of tokens up to its first semicolon, but for the spelling of
    names that all tables of identifiers take for the same. *)
Theorem C55_unique : forall (X : FloatLib) (L : CaseLib) (U : RuneLib), RuneLib_scan U -> forall text vs left vs' left',
  Forall (fun r => 0 <= r <= 1114111) text -> statement_text text vs left -> statement_text text vs' left' ->
  ~ In TEnd vs -> ~ In TEnd vs' -> Forall2 same_value vs vs' /\ left = left'.
Proof. exact @text_unique. Qed.
Print Assumptions C55_unique.

Example C55_unique_case :
  Forall (fun r => 0 <= r <= 1114111) (runes demo_not) /\ statement_text (runes demo_not) demo_not_tokens [] /\ ~ In TEnd demo_not_tokens /\
  length demo_not_tokens = 10%nat.
Proof.
  split; [repeat (apply Forall_cons; [split; discriminate|]); apply Forall_nil|]. split; [exact demo_not_text|].
  split; [|reflexivity]. unfold demo_not_tokens. cbn [In]. intuition discriminate.
Qed.

(** The same for an expression alone, up to a semicolon or the end of the text: the
    expression returned is one that all of the tokens say. *)
Theorem C55_exact_expr : forall (X : FloatLib) (L : CaseLib) (U : RuneLib) (B : BufLib) (P : PrintLib), RuneLib_scan U -> forall input p vs left,
  parsing input p -> p_unscanned p = 0%nat -> real (s_ids (p_scanner p)) ->
  statement_text (rest (p_scanner p)) vs left ->
  exists T, real T /\ later (s_ids (p_scanner p)) T /\ (forall n q, In (TName n q) vs -> knows T n q) /\
    forall e, expr_accepts T vs e -> exists e' p', ParseExpr p = Done e' p' /\ expr_accepts T vs e' /\ s_ids (p_scanner p') = T.
Proof. exact @expr_exact. Qed.
Print Assumptions C55_exact_expr.

Example C55_exact_expr_case :
  parsing (runes demo_condition) (demo_parser demo_condition) /\ p_unscanned (demo_parser demo_condition) = 0%nat /\
  real (s_ids (p_scanner (demo_parser demo_condition))) /\
  statement_text (rest (p_scanner (demo_parser demo_condition))) demo_where (runes "COMMIT") /\
  expr_accepts demo_names' demo_where (demo_grouped 47 48 49).
Proof.
  split; [apply demo_parsing|]. split; [reflexivity|]. split; [apply demo_real|]. split; [exact demo_condition_text|exact demo_condition_accepted].
Qed.

(** Whatever the grammar says is among it. *)
Theorem C55_grammar : forall (X : FloatLib) (L : CaseLib) (P : PrintLib) T vs s, text_says T vs s -> text_accepts T vs s.
Proof. exact @text_says_accepts. Qed.
Print Assumptions C55_grammar.

(** There are no parameters in a statement. *)
Theorem C55_parameters : forall (X : FloatLib) (L : CaseLib) (P : PrintLib) T vs s i, text_accepts T vs s -> ~ In (TParameter i) vs.
Proof. exact @no_parameter. Qed.
Print Assumptions C55_parameters.

Example C55_case :
  parsing (runes demo_delete) (demo_parser demo_delete) /\ p_unscanned (demo_parser demo_delete) = 0%nat /\
  p_failed (demo_parser demo_delete) = false /\ real (s_ids (p_scanner (demo_parser demo_delete))) /\
  (exists p', Parse (demo_parser demo_delete) =
     PStmt (Some (SDelete {| tn_database := 0; tn_schema := 47; tn_table := 48 |} (Some (demo_grouped 49 50 51)))) p') /\
  statement_text (rest (p_scanner (demo_parser demo_delete))) demo_delete_tokens (runes "COMMIT") /\
  text_accepts demo_names demo_delete_tokens (SDelete {| tn_database := 0; tn_schema := 47; tn_table := 48 |} (Some (demo_grouped 49 50 51))).
Proof.
  split; [apply demo_parsing|]. split; [reflexivity|]. split; [reflexivity|]. split; [apply demo_real|]. split; [exact demo_delete_parsed|].
  split; [exact demo_delete_text|]. apply text_says_accepts, demo_delete_says.
Qed.

(** What is not said is not parsed. *)
Example C55_rejected :
  demo_parses 1 (demo_parser "SELECT a FROM t WHERE a = $1") = [GotError] /\
  demo_parses 1 (demo_parser "SELECT a FROM t WHERE") = [GotError] /\
  demo_parses 1 (demo_parser "SELECT a b c FROM t") = [GotError] /\
  demo_parses 1 (demo_parser "INSERT INTO t (a, a) VALUES (1, 2)") = [GotError] /\
  demo_parses 1 (demo_parser "COMMIT COMMIT") = [GotError].
Proof. vm_compute. repeat split. Qed.

(** The grammar does not have all of it: after NOT an operator takes the negation. *)
Theorem C55_refuted : ~ (forall (X : FloatLib) (L : CaseLib) (U : RuneLib) (B : BufLib) (P : PrintLib), RuneLib_scan U -> forall input p s p',
  parsing input p -> p_unscanned p = 0%nat -> p_failed p = false -> real (s_ids (p_scanner p)) ->
  Parse p = PStmt (Some s) p' -> copies s = false ->
  exists vs left, statement_text (rest (p_scanner p)) vs left /\ text_says (s_ids (p_scanner p')) vs s).
Proof. exact not_only_said. Qed.
Print Assumptions C55_refuted.

(** The rest of what is not in the grammar: SHOW of any word that is reserved,
    options given more than once, bytes, and the name [""] of a constraint. *)
Example C55_more :
  demo_parses 1 (demo_parser "SHOW select") = [Got (Some (SShow kSELECT))] /\
  demo_parses 1 (demo_parser "CREATE DATABASE d WITH a 1 b 2 a 3") = [Got (Some (SCreateDatabase 47 [(48, str "3"); (49, str "2")]))] /\
  demo_parses 1 (demo_parser "VALUES (x'01ff')") = [Got (Some (SValues [[Literal (VBytes [Ascii.byte_of_ascii (Ascii.ascii_of_nat 1); Ascii.byte_of_ascii (Ascii.ascii_of_nat 255)])]]))] /\
  demo_parses 1 (demo_parser "ALTER TABLE t ADD CONSTRAINT """" FOREIGN KEY (a) REFERENCES u") =
    demo_parses 1 (demo_parser "ALTER TABLE t ADD FOREIGN KEY (a) REFERENCES u").
Proof. vm_compute. repeat split. Qed.
