(** Properties C44 to C52: the parser, parser/parser.go. *)

From Verif Require Import ModelParser SpecParser SpecExpr SpecCreate LemmasParserProps LemmasResume LemmasDemo LemmasDemoTyped LemmasDemoEngine LemmasDemoScan LemmasDemoParser.

(** C45.  [adjustPrecedence] terminates on every tree: from some number of calls
    on the result is the same, and the fuel it is given is enough.  The words of
    the expression keep their order, operators are grouped by precedence and to
    the left, and a second application changes nothing. *)
Theorem C45_adjust : forall e, exists t,
  grouped t /\ words t = words e /\
  adjustPrecedence (8 * expr_size e) e = Some t /\
  exists N, forall n, (N <= n)%nat -> adjustPrecedence n e = Some t /\ adjustPrecedence n t = Some t.
Proof. exact adjust_total. Qed.
Print Assumptions C45_adjust.

(** What is grouped already stays as it is. *)
Theorem C45_fixed : forall e, grouped e -> exists N, forall n, (N <= n)%nat -> adjustPrecedence n e = Some e.
Proof. exact adjust_fixed. Qed.
Print Assumptions C45_fixed.

Example C45_case :
  let a := Ref [101] in let b := Ref [102] in let c := Ref [103] in let d := Ref [104] in
  let e := BinaryExpr MultiplyOp a (UnaryExpr NegateOp (BinaryExpr AddOp b (BinaryExpr OrOp c (SExpr 7 [BinaryExpr SubtractOp a (BinaryExpr SubtractOp b d)])))) in
  let t := BinaryExpr OrOp (BinaryExpr AddOp (BinaryExpr MultiplyOp a (UnaryExpr NegateOp b)) c)
             (SExpr 7 [BinaryExpr SubtractOp (BinaryExpr SubtractOp a b) d]) in
  adjustPrecedence (8 * expr_size e) e = Some t /\ e <> t /\ grouped t /\
  words t = [WAtom a; WOp MultiplyOp; WOp NegateOp; WAtom b; WOp AddOp; WAtom c; WOp OrOp;
             WCall 7; WAtom a; WOp SubtractOp; WAtom b; WOp SubtractOp; WAtom d; WComma; WClose].
Proof. cbv zeta. split; [vm_compute; reflexivity|]. split; [discriminate|]. split; [|reflexivity]. cbn. intuition (reflexivity || discriminate). Qed.

(** C47.  The parser keeps the last three tokens in a ring.  It does what a parser
    does that has all tokens on a tape and may go back as far as it likes: the same
    statement, error or end of the file, and it is in step with the tape
    afterwards, with at most two tokens un-read. *)
Theorem C47_same : forall (X : FloatLib) (L : CaseLib) (U : RuneLib) (B : BufLib) (P : PrintLib), RuneLib_scan U -> forall input p t,
  in_step input p t -> same input (p_failed p) (Parse p) (t_parse (p_failed p) t).
Proof. exact @parse_same. Qed.
Print Assumptions C47_same.

(** It is in step at the beginning of any text, and whenever it is called. *)
Theorem C47_start : forall (X : FloatLib) (L : CaseLib) (U : RuneLib) (B : BufLib) input ids,
  Forall (fun r => 0 <= r <= 1114111) input ->
  in_step input (newParser ids input) {| t_past := []; t_ahead := []; t_scanner := scannerInit ids input |}.
Proof. exact @start_in_step. Qed.
Print Assumptions C47_start.

Theorem C47_reached : forall (X : FloatLib) (L : CaseLib) (U : RuneLib) (B : BufLib) (P : PrintLib), RuneLib_scan U -> forall input p,
  parsing input p -> exists t, in_step input p t.
Proof. exact @parsing_in_step. Qed.
Print Assumptions C47_reached.

(* in the middle of a text, after a statement and an error *)
Definition demo_statements : String.string := "SELECT -a.b, c AS d FROM t, (VALUES (1)) AS u; DROP 1; COMMIT".
Example C47_case :
  (exists s, demo_parses 4 (demo_parser demo_statements) = [Got (Some s); GotError; Got (Some SCommit); GotEOF]) /\
  p_failed (demo_after 2 (demo_parser demo_statements)) = true /\
  exists t, in_step (runes demo_statements) (demo_after 2 (demo_parser demo_statements)) t.
Proof.
  split; [eexists; vm_compute; reflexivity|]. split; [vm_compute; reflexivity|].
  apply (parsing_in_step demo_U_scan). apply demo_after_parsing, demo_parsing.
Qed.

(** C48.  Every call returns: the fuel, which is what is left of the text, is
    enough, for expressions too.  Calls reach the end of the file (or a panic)
    after at most as many statements and errors as runes and tokens are left. *)
Theorem C48_terminates : forall (X : FloatLib) (L : CaseLib) (U : RuneLib) (B : BufLib) (P : PrintLib), RuneLib_scan U -> forall input p,
  parsing input p ->
  Parse p <> PStuck /\ ParseExpr p <> Stuck /\
  exists t l, in_step input p t /\ to_eof p l /\ (length l <= S (left_over t))%nat.
Proof. exact @reads_all. Qed.
Print Assumptions C48_terminates.

(** Every call that does not return the end of the file leaves less than it found. *)
Theorem C48_progress : forall (X : FloatLib) (L : CaseLib) (U : RuneLib) (B : BufLib) (P : PrintLib), RuneLib_scan U -> forall input p t,
  in_step input p t ->
  match Parse p with
  | PStmt _ p' | PErr p' => exists t', in_step input p' t' /\ (left_over t' < left_over t)%nat
  | PEOF p' => exists t', in_step input p' t'
  | PCrash => True
  | PStuck => False
  end.
Proof. exact @parse_progress. Qed.
Print Assumptions C48_progress.

Theorem C48_whole : forall (X : FloatLib) (L : CaseLib) (U : RuneLib) (B : BufLib) (P : PrintLib), RuneLib_scan U -> forall input ids,
  Forall (fun r => 0 <= r <= 1114111) input ->
  exists l, to_eof (newParser ids input) l /\ (length l <= S (length input))%nat.
Proof. exact @reads_text. Qed.
Print Assumptions C48_whole.

(** The fuel is not noticed: with any larger number of steps the same is returned. *)
Theorem C48_fuel : forall (X : FloatLib) (L : CaseLib) (U : RuneLib) (B : BufLib) (P : PrintLib), RuneLib_scan U -> forall input p,
  parsing input p -> exists N, forall n, (N <= n)%nat -> ParseWith n p = Parse p /\ ParseExprWith n p = ParseExpr p.
Proof. exact @fuel_irrelevant. Qed.
Print Assumptions C48_fuel.

Example C48_case :
  demo_parses 9 (demo_parser "BEGIN; SELECT ); ;;'COMMIT") = [Got (Some SBegin); GotError; Got None; GotError; GotEOF].
Proof. vm_compute. reflexivity. Qed.

(** C50.  There are inputs that make [Parse] panic. *)
Theorem C50_no_panic_refuted :
  ~ (forall (X : FloatLib) (L : CaseLib) (U : RuneLib) (B : BufLib) (P : PrintLib), RuneLib_scan U ->
     forall input p, parsing input p -> Parse p <> PCrash).
Proof. exact panic_refuted. Qed.
Print Assumptions C50_no_panic_refuted.

Example C50_use : demo_parses 1 (demo_parser "USE NULL;") = [GotPanic]. Proof. vm_compute. reflexivity. Qed.
Example C50_set : demo_parses 1 (demo_parser "SET flag = NULL;") = [GotPanic]. Proof. vm_compute. reflexivity. Qed.
Example C50_escape : demo_parses 1 (demo_parser "SELECT e'\UFFFFFFFD'") = [GotPanic]. Proof. vm_compute. reflexivity. Qed.

(** These are all: unless the text has the escape sequence for the number of the
    error token, a panic comes with USE NULL or SET variable = NULL. *)
Theorem C50_panics : forall (X : FloatLib) (L : CaseLib) (U : RuneLib) (B : BufLib) (P : PrintLib), RuneLib_scan U -> forall input p,
  (forall s, scanning input s -> ~ bad_escape (rest s)) -> parsing input p ->
  exists t, in_step input p t /\
    (Parse p = PCrash -> exists t', t_parse (p_failed p) t = TCrash t' /\ set_null (map tok_of (t_past t'))) /\
    (forall p', ParseExpr p <> Crashed p').
Proof. exact @panics. Qed.
Print Assumptions C50_panics.

(** In particular when it has no backslash. *)
Theorem C50_panics_plain : forall (X : FloatLib) (L : CaseLib) (U : RuneLib) (B : BufLib) (P : PrintLib), RuneLib_scan U -> forall input p,
  ~ In 92 input -> parsing input p ->
  exists t, in_step input p t /\
    (Parse p = PCrash -> exists t', t_parse (p_failed p) t = TCrash t' /\ set_null (map tok_of (t_past t'))) /\
    (forall p', ParseExpr p <> Crashed p').
Proof. exact @panics_only. Qed.
Print Assumptions C50_panics_plain.

Example C50_case : ~ In 92 (runes "BEGIN; SET flag TO NULL") /\
  demo_parses 2 (demo_parser "BEGIN; SET flag TO NULL") = [Got (Some SBegin); GotPanic].
Proof. split; [|vm_compute; reflexivity]. vm_compute. intuition discriminate. Qed.

(** C51.  The tables of CREATE TABLE are well-formed. *)
Theorem C51_table : forall (X : FloatLib) (L : CaseLib) (U : RuneLib) (B : BufLib) (P : PrintLib) p tn cols types defaults ine csts fks p',
  Parse p = PStmt (Some (SCreateTable tn cols types defaults ine csts fks)) p' -> table_ok cols types defaults csts.
Proof. exact @parsed_table. Qed.
Print Assumptions C51_table.

(** A key may share its name with a CHECK constraint written behind it. *)
Theorem C51_names_refuted :
  ~ (forall (X : FloatLib) (L : CaseLib) (U : RuneLib) (B : BufLib) (P : PrintLib), RuneLib_scan U ->
     forall input p tn cols types defaults ine csts fks p', parsing input p ->
     Parse p = PStmt (Some (SCreateTable tn cols types defaults ine csts fks)) p' ->
     forall i j a b, i <> j -> nth_error csts i = Some a -> nth_error csts j = Some b -> is_key a -> con_name a <> con_name b).
Proof. exact names_refuted. Qed.
Print Assumptions C51_names_refuted.

Example C51_case : exists tn cols types defaults ine csts fks,
  demo_parses 1 (demo_parser "CREATE TABLE t (a INT PRIMARY KEY, b TEXT DEFAULT 'x' CONSTRAINT n NOT NULL UNIQUE, CHECK (a > 1), UNIQUE (b DESC, a))") =
    [Got (Some (SCreateTable tn cols types defaults ine csts fks))] /\
  length cols = 2%nat /\
  map con_type csts = [PrimaryConstraint; NotNullConstraint; UniqueConstraint; CheckConstraint; UniqueConstraint].
Proof. do 7 eexists. split; [vm_compute; reflexivity|]. split; vm_compute; reflexivity. Qed.
Example C51_rejected :
  demo_parses 1 (demo_parser "CREATE TABLE t (a INT PRIMARY KEY, b INT, PRIMARY KEY (b))") = [GotError] /\
  demo_parses 1 (demo_parser "CREATE TABLE t (a INT, a INT)") = [GotError] /\
  demo_parses 1 (demo_parser "CREATE TABLE t (a INT, b INT, UNIQUE (a, b), UNIQUE (a, b))") = [GotError].
Proof. repeat split; vm_compute; reflexivity. Qed.
