(** Property C73: what an error of the parser says was expected and found,
    parser/parser.go:112-244, parser/token/token.go:74-82. *)

From Verif Require Import LemmasDemo LemmasDemoTyped LemmasDemoEngine LemmasDemoScan LemmasDemoParser SpecScanner SpecParser SpecPlace ModelGot SpecGot LemmasGot LemmasGotRange LemmasDemoGot.

(** C73.  The text for the token in a context, *)
Theorem C73_found : forall (W : GotLib) T c t, is_i64 (c_token c) -> is_i64 (c_integer c) -> (got T c = Some t <-> found_says T c t).
Proof. exact @found_exact. Qed.
Print Assumptions C73_found.

(** which there is unless the token is an error without one. *)
Theorem C73_panics : forall (W : GotLib) T c, got T c = None <-> no_error c.
Proof. exact @found_none. Qed.
Print Assumptions C73_panics.

(** It tells which token it is, but for bytes, floats, parameters and lexical
    errors. *)
Theorem C73_tells : forall (W : GotLib) T c d t, GotLib_ok ->
  is_i64 (c_token c) -> is_i64 (c_integer c) -> is_i64 (c_token d) -> is_i64 (c_integer d) ->
  telling c -> telling d -> got T c = Some t -> got T d = Some t -> same_token T c d.
Proof. exact @found_tells. Qed.
Print Assumptions C73_tells.

Example C73_case :
  let c := {| c_token := -8; c_error := None; c_ident := 0; c_string := str "abc"; c_bytes := {| sl_array := 0; sl_len := 0 |};
              c_integer := -5; c_float := 0; c_line := 1; c_column := 7 |} in
  let d := {| c_token := -8; c_error := Some SNumber; c_ident := 42; c_string := []; c_bytes := {| sl_array := 0; sl_len := 0 |};
              c_integer := -5; c_float := 1; c_line := 2; c_column := 1 |} in
  GotLib_ok /\ is_i64 (c_token c) /\ is_i64 (c_integer c) /\ is_i64 (c_token d) /\ is_i64 (c_integer d) /\ telling c /\ telling d /\
  got idt_init c = Some (str "integer -5") /\ got idt_init d = Some (str "integer -5").
Proof.
  intros c d. split; [exact demo_W_ok|]. do 4 (split; [vm_compute; split; [discriminate|reflexivity]|]).
  do 2 (split; [split; [cbn [In c d c_token]; intros [H|[H|[H|[H|[]]]]]; discriminate H|intros H; vm_compute in H; discriminate H]|]). split; vm_compute; reflexivity.
Qed.

Example C73_found_case :
  demo_found "SELECT a FROM select" = Some (-5, Some (str "reserved identifier SELECT"), None) /\
  demo_found "SELECT 'abc' <> FROM" = Some (-5, Some (str "reserved identifier FROM"), None) /\
  demo_found "SELECT (1 <> 2" = Some (-1, Some (str "end of file"), None) /\
  demo_found "SELECT a b <=" = Some (-13, Some (str "<="), None) /\
  demo_found "SELECT a b 'c'" = Some (-6, Some (str "string ""c"""), None).
Proof. vm_compute. repeat split. Qed.

(** The text for a token alone. *)
Theorem C73_token : forall t w, is_i64 t -> (tokenFormat t = w <-> token_says t w).
Proof. exact format_exact. Qed.
Print Assumptions C73_token.
Example C73_token_case : is_i64 (-14) /\ tokenFormat (-14) = str "<>" /\ tokenFormat 41 = str "rune )" /\ tokenFormat (-6) = str "token -6".
Proof. vm_compute. repeat split; discriminate. Qed.

(** The list of what was expected. *)
Theorem C73_list : forall l a, expectedText l = a <-> alternatives l a.
Proof. exact list_exact. Qed.
Print Assumptions C73_list.
Example C73_list_case : expectedText (map str ["A"; "B"; "C"]%string) = str "A, B, or C" /\ expectedText (map str ["A"; "B"]%string) = str "A, or B".
Proof. vm_compute. repeat split. Qed.

(** The functions that expect something end with an error just if the next token is
    another one, *)
Theorem C73_when : forall (X : FloatLib) (L : CaseLib) (U : RuneLib) (B : BufLib) e p q,
  scanRune p = Some (q, false) -> ~ no_error (p_sctx q) ->
  (expected e (p_sctx q) /\ run (expectation e) p = Done tt q) \/ (~ expected e (p_sctx q) /\ run (expectation e) p = Failed q).
Proof. exact @expect_when. Qed.
Print Assumptions C73_when.

(** and its text says where it was, what was expected and what was found. *)
Theorem C73_error : forall (X : FloatLib) (L : CaseLib) (U : RuneLib) (B : BufLib) (W : GotLib) fn e p q,
  run (expectation e) p = Failed q -> c_token (p_sctx q) <> -3 ->
  is_i64 (c_line (p_sctx q)) -> is_i64 (c_column (p_sctx q)) -> is_i64 (c_token (p_sctx q)) -> is_i64 (c_integer (p_sctx q)) ->
  match e with XTokens rs => Forall is_i64 rs | XInteger lo hi => is_i64 lo /\ is_i64 hi | _ => True end ->
  exists place g m, expectError fn e p = Some (place ++ m) /\ error_says fn (c_line (p_sctx q)) (c_column (p_sctx q)) place /\
    found_says (s_ids (p_scanner q)) (p_sctx q) g /\ expected_says (s_ids (p_scanner q)) g e m.
Proof. exact @expect_error. Qed.
Print Assumptions C73_error.

Example C73_error_case :
  match run (expectation (XTokens [44; 41])) (demo_parser "x'00'") with
  | Failed q => c_token (p_sctx q) <> -3 /\ is_i64 (c_line (p_sctx q)) /\ is_i64 (c_column (p_sctx q)) /\
      is_i64 (c_token (p_sctx q)) /\ is_i64 (c_integer (p_sctx q))
  | _ => False
  end /\ Forall is_i64 [44; 41] /\
  expectError (str "console") (XTokens [44; 41]) (demo_parser "x'00'") = Some (str "parser: console:1:1: expected rune ,, or rune ), got bytes ").
Proof. exact demo_expects. Qed.

(** The tokens and the integers of the contexts of a parser are small, also amid
    a statement, after whichever actions, *)
Theorem C73_range : forall (X : FloatLib) (L : CaseLib) (U : RuneLib) (B : BufLib) (P : PrintLib) A input p (g : act A) q,
  parsing input p -> (exists a, run g p = Done a q) \/ run g p = Failed q ->
  -18 <= c_token (p_sctx q) <= 127 /\ is_i64 (c_integer (p_sctx q)).
Proof. exact @contexts_in. Qed.
Print Assumptions C73_range.

(** so that errors say this wherever something else is expected. *)
Theorem C73_inside : forall (X : FloatLib) (L : CaseLib) (U : RuneLib) (B : BufLib) (P : PrintLib) (W : GotLib) A input fn p (g : act A) a p1 e q,
  parsing input p -> Z.of_nat (length input) < 2 ^ 63 - 1 ->
  run g p = Done a p1 -> run (expectation e) p1 = Failed q -> c_token (p_sctx q) <> -3 ->
  match e with XTokens rs => Forall is_i64 rs | XInteger lo hi => is_i64 lo /\ is_i64 hi | _ => True end ->
  exists place t m, expectError fn e p1 = Some (place ++ m) /\ error_says fn (c_line (p_sctx q)) (c_column (p_sctx q)) place /\
    found_says (s_ids (p_scanner q)) (p_sctx q) t /\ expected_says (s_ids (p_scanner q)) t e m.
Proof. exact @inside_error. Qed.
Print Assumptions C73_inside.

Example C73_inside_case :
  parsing (runes "use database <= 5") (demo_parser "use database <= 5") /\ Z.of_nat (length (runes "use database <= 5")) < 2 ^ 63 - 1 /\
  match run (abind (expectReserved [kUSE]) (fun _ => optionalReserved [kDATABASE])) (demo_parser "use database <= 5") with
  | Done a p => a = true /\
      match run (expectation (XIdentifier (str "expected a database"))) p with
      | Failed q => c_token (p_sctx q) = -13 /\ c_integer (p_sctx q) = 0
      | _ => False
      end /\
      expectError (str "console") (XIdentifier (str "expected a database")) p = Some (str "parser: console:1:14: expected a database, got <=")
  | _ => False
  end.
Proof. split; [apply demo_parsing|]. split; [vm_compute; reflexivity|]. vm_compute. repeat split. Qed.

(** and the text tells the token of every context of a parser but for those kinds. *)
Theorem C73_tells_inside : forall (X : FloatLib) (L : CaseLib) (U : RuneLib) (B : BufLib) (P : PrintLib) (W : GotLib) A A'
  input p (g : act A) q input' p' (g' : act A') q' T t, GotLib_ok ->
  parsing input p -> (exists a, run g p = Done a q) \/ run g p = Failed q -> ~ In (c_token (p_sctx q)) [-3; -7; -9; -10] ->
  parsing input' p' -> (exists a, run g' p' = Done a q') \/ run g' p' = Failed q' -> ~ In (c_token (p_sctx q')) [-3; -7; -9; -10] ->
  got T (p_sctx q) = Some t -> got T (p_sctx q') = Some t -> same_token T (p_sctx q) (p_sctx q').
Proof. exact @inside_tells. Qed.
Print Assumptions C73_tells_inside.

Example C73_tells_inside_case :
  match run (expectation (XIdentifier [])) (demo_parser "  -7 a"), run (expectation (XTokens [44])) (demo_parser "-007") with
  | Failed q, Failed q' =>
      ~ In (c_token (p_sctx q)) [-3; -7; -9; -10] /\ ~ In (c_token (p_sctx q')) [-3; -7; -9; -10] /\ p_sctx q <> p_sctx q' /\
      got idt_init (p_sctx q) = Some (str "integer -7") /\ got idt_init (p_sctx q') = Some (str "integer -7")
  | _, _ => False
  end.
Proof.
  vm_compute. split; [intros [H|[H|[H|[H|[]]]]]; discriminate H|]. split; [intros [H|[H|[H|[H|[]]]]]; discriminate H|]. split; [discriminate|]. split; reflexivity.
Qed.

Example C73_when_case :
  match scanRune (demo_parser "abc") with
  | Some (q, false) => ~ no_error (p_sctx q) /\ expected (XIdentifier []) (p_sctx q) /\ ~ expected (XReserved [kINTO]) (p_sctx q)
  | _ => False
  end /\
  expectError (str "console") (XReserved [kINTO]) (demo_parser "abc") = Some (str "parser: console:1:1: expected keyword INTO; got identifier abc").
Proof.
  split; [|vm_compute; reflexivity]. vm_compute. split; [intros [H _]; discriminate H|]. split; [reflexivity|]. intros [H _]. discriminate H.
Qed.

(** What one would expect and is not so.  The text for bytes does not tell them, *)
Theorem C73_bytes_refuted : ~ (forall (X : FloatLib) (L : CaseLib) (U : RuneLib) (B : BufLib) (P : PrintLib) (W : GotLib), RuneLib_scan U -> GotLib_ok ->
  forall input p q l input' p' q' l', parsing input p -> Parse p = PErr q -> p_tok q = KBytes l ->
  parsing input' p' -> Parse p' = PErr q' -> p_tok q' = KBytes l' ->
  got (s_ids (p_scanner q)) (p_sctx q) = got (s_ids (p_scanner q')) (p_sctx q') ->
  b_look (s_buffer (p_scanner q)) l = b_look (s_buffer (p_scanner q')) l').
Proof. exact bytes_not_told. Qed.
Print Assumptions C73_bytes_refuted.

(** but tells a string of the text that may stand three tokens before: *)
Theorem C73_stale_refuted : ~ (forall (X : FloatLib) (L : CaseLib) (U : RuneLib) (B : BufLib) (P : PrintLib) (W : GotLib), RuneLib_scan U -> GotLib_ok ->
  forall input p q d, parsing input p -> Parse p = PErr q -> tok_of d = p_tok q ->
  got (s_ids (p_scanner q)) d = got (s_ids (p_scanner q)) (p_sctx q)).
Proof. exact stale_told. Qed.
Print Assumptions C73_stale_refuted.
Example C73_stale_case : demo_found "VALUES ('abc', x'00' x'01')" = Some (-7, Some (str "bytes abc"), Some [x01]).
Proof. vm_compute. reflexivity. Qed.

(** and all parameters have one text. *)
Theorem C73_parameter_refuted : ~ (forall (X : FloatLib) (L : CaseLib) (U : RuneLib) (B : BufLib) (P : PrintLib) (W : GotLib), RuneLib_scan U -> GotLib_ok ->
  forall input p q i input' p' q' i', parsing input p -> Parse p = PErr q -> p_tok q = KParameter i ->
  parsing input' p' -> Parse p' = PErr q' -> p_tok q' = KParameter i' ->
  got (s_ids (p_scanner q)) (p_sctx q) = got (s_ids (p_scanner q')) (p_sctx q') -> i = i').
Proof. exact parameter_not_told. Qed.
Print Assumptions C73_parameter_refuted.
