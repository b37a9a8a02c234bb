(** Property C67: where an error of the parser is reported, parser/parser.go,
    parser/scanner/scanner.go. *)

From Verif Require Import ModelParser ModelErrorText SpecScanner SpecParser SpecPosition SpecPlace LemmasDemo LemmasDemoTyped LemmasDemoEngine LemmasDemoScan LemmasDemoParser LemmasPlace LemmasPlaceRange LemmasDemoPlace.

(** C67.  The context of an error, which its text is made of, is that of a token
    of the text with the line and the column of that token - unless a reader of
    runes was made while a rune was put back, as COPY may do. *)
Theorem C67_where : forall (X : FloatLib) (L : CaseLib) (U : RuneLib) (B : BufLib) (P : PrintLib), RuneLib_scan U -> forall input p p',
  parsing input p -> Parse p = PErr p' ->
  astray input (p_scanner p') \/
  exists before text t, input = before ++ text /\ in_step input p' t /\ reported before text (p_sctx p') (nth 3 (t_past t) c_zero).
Proof. exact @error_where. Qed.
Print Assumptions C67_where.

(** It is a token that this call has read: the errors of one statement are not
    reported at another. *)
Theorem C67_behind : forall (X : FloatLib) (L : CaseLib) (U : RuneLib) (B : BufLib) (P : PrintLib), RuneLib_scan U -> forall input p p',
  parsing input p -> tokenizing input (p_scanner p) -> p_unscanned p = O -> Parse p = PErr p' ->
  astray input (p_scanner p') \/
  exists before u text t, input = before ++ text /\ rest (p_scanner p) = u ++ text /\ in_step input p' t /\ reported before text (p_sctx p') (nth 3 (t_past t) c_zero).
Proof. exact @error_behind. Qed.
Print Assumptions C67_behind.

Example C67_case :
  demo_error demo_where = Some (-5, 2, 3, str "parser: console:2:3: ") /\
  position (runes "SELECT a FROM
  W") 2 3 /\
  tokenizing (runes demo_where) (p_scanner (demo_parser demo_where)) /\ p_unscanned (demo_parser demo_where) = O.
Proof. split; [vm_compute; reflexivity|]. split; [exact demo_where_position|exact demo_where_clean]. Qed.

(** There is an error exactly when there is a text of one, and that begins with
    the position of the context, or it has no position at all: then the token is
    a lexical error. *)
Theorem C67_text : forall (X : FloatLib) (L : CaseLib) (U : RuneLib) (B : BufLib) (P : PrintLib) fn p,
  (exists p', Parse p = PErr p') <-> Parse_prefix fn p <> None.
Proof. exact @prefix_error. Qed.
Print Assumptions C67_text.

Theorem C67_says : forall (X : FloatLib) (L : CaseLib) (U : RuneLib) (B : BufLib) (P : PrintLib) input fn p p',
  parsing input p -> Z.of_nat (length input) < 2 ^ 63 - 1 -> Parse p = PErr p' ->
  exists text, Parse_prefix fn p = Some text /\ (text = [] \/ error_says fn (c_line (p_sctx p')) (c_column (p_sctx p')) text).
Proof. exact @place_text. Qed.
Print Assumptions C67_says.

(** The lines are no more than the runes of the text and one; the same holds of the
    contexts that no text is made of. *)
Theorem C67_range : forall (X : FloatLib) (L : CaseLib) (U : RuneLib) (B : BufLib) (P : PrintLib) input p, parsing input p ->
  0 <= c_line (p_sctx p) <= Z.of_nat (length input) + 1 /\ 0 <= c_column (p_sctx p) <= Z.of_nat (length input).
Proof. exact @place_range. Qed.
Print Assumptions C67_range.

Theorem C67_bare : forall (X : FloatLib) (L : CaseLib) (U : RuneLib) (B : BufLib) (P : PrintLib), RuneLib_scan U -> forall input fn p p',
  parsing input p -> Parse p = PErr p' -> Parse_prefix fn p = Some [] -> p_tok p' = KError true.
Proof. exact @prefix_bare. Qed.
Print Assumptions C67_bare.

(** Between statements, when no token is put back, that is so exactly if the
    first token is a lexical error. *)
Theorem C67_first : forall (X : FloatLib) (L : CaseLib) (U : RuneLib) (B : BufLib) (P : PrintLib) fn p,
  p_failed p = false -> p_unscanned p = O ->
  Parse_prefix fn p = Some [] <-> exists s c, Scan (p_scanner p) (nth ((p_current p + 1) mod 3) (p_lookBack p) c_zero) = Some (s, c) /\ tok_of c = KError true.
Proof. exact @prefix_first. Qed.
Print Assumptions C67_first.

Example C67_text_case :
  Parse_prefix (str "console") (demo_parser "~ SELECT") = Some [] /\
  Parse_prefix (str "console") (demo_parser "SELECT ~") = Some (str "parser: console:1:8: ") /\
  Parse_prefix (str "console") (demo_parser "SELECT 1") = None.
Proof. vm_compute. repeat split. Qed.

Example C67_says_case :
  demo_error demo_second = Some (-5, 2, 13, str "parser: console:2:13: ") /\
  error_says (str "console") 2 13 (str "parser: console:2:13: ") /\
  parsing (runes demo_second) (demo_parser demo_second) /\ Z.of_nat (length (runes demo_second)) < 2 ^ 63 - 1 /\
  p_failed (demo_parser "~ SELECT") = false /\ p_unscanned (demo_parser "~ SELECT") = O /\
  demo_error "SELECT" = Some (-1, 0, 0, str "parser: console: ").
Proof.
  split; [vm_compute; reflexivity|]. split; [exact demo_says|]. split; [apply demo_parsing|]. vm_compute. repeat split.
Qed.

(** What one would expect and is not so.  An error at the end of a statement is
    not reported there: *)
Theorem C67_end_refuted : ~ (forall input p p', parsing input p -> Parse p = PErr p' -> c_token (p_sctx p') = -2 ->
  exists before w, input = before ++ 59 :: w /\ position (before ++ [59]) (c_line (p_sctx p')) (c_column (p_sctx p'))).
Proof. exact end_place_refuted. Qed.
Print Assumptions C67_end_refuted.

(** behind a COPY without a semicolon on its line, a token may have no place: *)
Theorem C67_copy_refuted : ~ (forall input p p', parsing input p -> Parse p = PErr p' ->
  exists before text older, input = before ++ text /\ reported before text (p_sctx p') older).
Proof. exact copy_place_refuted. Qed.
Print Assumptions C67_copy_refuted.

(** and not every error says where it is. *)
Theorem C67_bare_refuted : ~ (forall fn input p p', parsing input p -> Parse p = PErr p' -> Parse_prefix fn p <> Some []).
Proof. exact bare_place_refuted. Qed.
Print Assumptions C67_bare_refuted.
