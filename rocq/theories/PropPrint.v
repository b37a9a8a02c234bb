(** Property C46: an expression that is printed and read back, parser/sql/expr.go
    (String) and parser/parser.go:1091-1271 (ParseExpr). *)

From Verif Require Import ModelPrint SpecPrint SpecIdent LemmasIdent LemmasGrammarLink LemmasSoundParseExpr LemmasPrint LemmasQuote LemmasDemo LemmasDemoTyped LemmasDemoEngine LemmasDemoScan LemmasDemoParser LemmasDemoPrint.

(** C46.  A plain expression is returned but for parentheses, by every parser that
    has its printed form left to read. *)
Theorem C46_round_trip : forall (X : FloatLib) (L : CaseLib) (U : RuneLib) (B : BufLib) (P : PrintLib), RuneLib_scan U -> CaseLib_ok L ->
  forall T e, real T -> plain T false e -> returns T e.
Proof. exact @round_trip. Qed.
Print Assumptions C46_round_trip.

(** There is but one text that is printed, so [returns] is about that. *)
Theorem C46_text : forall w v, Forall scalar w -> Forall scalar v -> encode w = encode v -> w = v.
Proof. exact encode_injective. Qed.
Print Assumptions C46_text.

Example C46_case :
  let _ := demo_X in let _ := demo_L in let _ := demo_U in let _ := demo_B in let _ := demo_P in
  RuneLib_scan demo_U /\ CaseLib_ok demo_L /\ real demo_table /\ plain demo_table false demo_plain /\
  exprString demo_table demo_plain = PText (str "((NOT a) AND (f(-7, a.b, 'x') < (- b)))") /\
  (let p := demo_reader demo_table (runes "((NOT a) AND (f(-7, a.b, 'x') < (- b)))") in
   parsing (runes "((NOT a) AND (f(-7, a.b, 'x') < (- b)))") p /\ p_unscanned p = 0%nat /\ rest (p_scanner p) = runes "((NOT a) AND (f(-7, a.b, 'x') < (- b)))" /\
   demo_read p = Some (strip demo_plain)).
Proof.
  intros. split; [exact demo_U_scan|]. split; [exact CaseLib_ascii_ok|]. split; [exact demo_table_real|]. split; [exact demo_plain_ok|].
  split; [vm_compute; reflexivity|]. intros p. split; [apply ps_start, demo_runes|]. split; [reflexivity|]. split; [reflexivity|]. vm_compute. reflexivity.
Qed.

(** Among them a float, minus one half. *)
Example C46_float_case :
  RuneLib_scan demo_U /\ CaseLib_ok demo_L /\ real demo_table /\ @plain float_X demo_L demo_U float_P demo_table false (Literal (VFloat 13826050856027422720)) /\
  @exprString float_P demo_table (Literal (VFloat 13826050856027422720)) = PText (str "-0.5") /\
  @demo_read float_X float_P (demo_reader demo_table (runes "-0.5")) = Some (Literal (VFloat 13826050856027422720)).
Proof.
  split; [exact demo_U_scan|]. split; [exact CaseLib_ascii_ok|]. split; [exact demo_table_real|]. split; [apply pl_float, demo_half_plain|].
  split; vm_compute; reflexivity.
Qed.

(** A float that is written without a dot is never returned. *)
Theorem C46_float : forall (X : FloatLib) (L : CaseLib) (U : RuneLib) (B : BufLib) (P : PrintLib), RuneLib_scan U ->
  forall input p e p' q, parsing input p -> p_unscanned p = 0%nat -> real (s_ids (p_scanner p)) -> ParseExpr p = Done e p' ->
  strip e = Literal (VFloat q) -> In 46 (rest (p_scanner p)).
Proof. exact @float_needs_dot. Qed.
Print Assumptions C46_float.

(** So not every float is returned: one is printed as 1. *)
Theorem C46_float_refuted : ~ (forall p, is_u64 p -> @returns float_X demo_L demo_U demo_B float_P demo_table (Literal (VFloat p))).
Proof. exact demo_floats_lost. Qed.
Print Assumptions C46_float_refuted.

(** A float with an exponent comes back as another. *)
Example C46_exponent :
  @exprString float_P demo_table (Literal (VFloat 4699193262664056832)) = PText (str "1.5e+06") /\
  @demo_read float_X float_P (demo_reader demo_table (runes "1.5e+06")) = Some (Literal (VFloat 4609434218613702656)) /\
  ~ @returns float_X demo_L demo_U demo_B float_P demo_table (Literal (VFloat 4699193262664056832)).
Proof. split; [vm_compute; reflexivity|]. split; [vm_compute; reflexivity|]. exact demo_exponent_lost. Qed.

(** Text with a quote in it is never returned: it is printed between quotes as it
    is. *)
Theorem C46_quote : forall (X : FloatLib) (L : CaseLib) (U : RuneLib) (B : BufLib) (P : PrintLib), RuneLib_scan U ->
  forall input p T w text, parsing input p -> p_unscanned p = 0%nat -> Forall scalar w -> In 39 w ->
  exprString T (Literal (VString (encode w))) = PText (encode text) -> Forall scalar text -> rest (p_scanner p) = text ->
  forall e p', ParseExpr p = Done e p' -> strip e <> Literal (VString (encode w)).
Proof. exact @quote_lost. Qed.
Print Assumptions C46_quote.

Example C46_quote_case :
  let _ := demo_X in let _ := demo_L in let _ := demo_U in let _ := demo_B in let _ := demo_P in
  let p := demo_reader demo_table (runes "'a' OR 'b'") in
  parsing (runes "'a' OR 'b'") p /\ p_unscanned p = 0%nat /\ Forall scalar (runes "a' OR 'b") /\ In 39 (runes "a' OR 'b") /\
  exprString demo_table (Literal (VString (encode (runes "a' OR 'b")))) = PText (encode (runes "'a' OR 'b'")) /\
  rest (p_scanner p) = runes "'a' OR 'b'" /\
  demo_read p = Some (BinaryExpr OrOp (Literal (VString (str "a"))) (Literal (VString (str "b")))).
Proof.
  intros. split; [apply ps_start, demo_runes|]. split; [reflexivity|]. split; [apply demo_scalar|]. split; [vm_compute; tauto|].
  split; [vm_compute; reflexivity|]. split; [reflexivity|]. vm_compute. reflexivity.
Qed.

Theorem C46_quote_refuted : ~ (forall w, Forall scalar w -> @returns demo_X demo_L demo_U demo_B demo_P demo_table (Literal (VString (encode w)))).
Proof. exact (fun H => demo_quote_lost (H _ (demo_scalar "a' OR 'b"))). Qed.
Print Assumptions C46_quote_refuted.

(** Bytes are always returned as text. *)
Theorem C46_bytes : forall (X : FloatLib) (L : CaseLib) (U : RuneLib) (B : BufLib) (P : PrintLib), RuneLib_scan U -> CaseLib_ok L ->
  forall T b, real T ->
  exists text, exprString T (Literal (VBytes b)) = PText (encode text) /\ Forall scalar text /\
    forall input p, parsing input p -> p_unscanned p = 0%nat -> rest (p_scanner p) = text ->
      real (s_ids (p_scanner p)) -> later T (s_ids (p_scanner p)) ->
      exists e s p', ParseExpr p = Done e p' /\ strip e = Literal (VString s).
Proof. exact @bytes_as_text. Qed.
Print Assumptions C46_bytes.

Example C46_bytes_case :
  let _ := demo_X in let _ := demo_L in let _ := demo_U in let _ := demo_B in let _ := demo_P in
  let p := demo_reader demo_table (runes "'\x01ab'") in
  exprString demo_table (Literal (VBytes [zb 1; zb 171])) = PText (str "'\x01ab'") /\
  parsing (runes "'\x01ab'") p /\ p_unscanned p = 0%nat /\ rest (p_scanner p) = runes "'\x01ab'" /\
  later demo_table (s_ids (p_scanner p)) /\ demo_read p = Some (Literal (VString (str "\x01ab"))).
Proof.
  intros. split; [vm_compute; reflexivity|]. split; [apply ps_start, demo_runes|]. split; [reflexivity|]. split; [reflexivity|].
  split; [change (later demo_table demo_table); exact (grown_later demo_table demo_table demo_table_real (grown_refl demo_table demo_table_real))|]. vm_compute. reflexivity.
Qed.

Theorem C46_bytes_refuted : ~ (forall b, @returns demo_X demo_L demo_U demo_B demo_P demo_table (Literal (VBytes b))).
Proof. exact (fun H => demo_bytes_lost (H _)). Qed.
Print Assumptions C46_bytes_refuted.

(** Nor is the least integer (its digits without the sign are no int64), nor a name
    that must be written in quotes. *)
Theorem C46_least_refuted : ~ (forall i, is_i64 i -> @returns demo_X demo_L demo_U demo_B demo_P demo_table (Literal (VInt i))).
Proof. exact demo_ints_lost. Qed.
Print Assumptions C46_least_refuted.

Theorem C46_name_refuted : ~ (forall i, 0 <= i -> @returns demo_X demo_L demo_U demo_B demo_P demo_table (Ref [i])).
Proof. exact demo_names_lost. Qed.
Print Assumptions C46_name_refuted.
