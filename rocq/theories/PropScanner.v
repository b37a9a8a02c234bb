(** Properties C39 to C43: the scanner, parser/scanner/scanner.go. *)

From Verif Require Import ModelScanner SpecScanner LemmasScanProps LemmasDemo LemmasDemoTyped LemmasDemoEngine LemmasDemoScan.

(** C39.  Scanning a token terminates: [Scan], whose fuel is the length of what
    is left, always returns. *)
Theorem C39_terminates : forall (X : FloatLib) (L : CaseLib) (U : RuneLib) (B : BufLib), RuneLib_scan U -> forall input s c, scanning input s ->
  exists s' c', Scan s c = Some (s', c').
Proof. exact @terminates. Qed.
Print Assumptions C39_terminates.

(** What is left after a token is a suffix of what was left before, a proper one
    unless the token is the end of the file, and nothing is left then. *)
Theorem C39_order : forall (X : FloatLib) (L : CaseLib) (U : RuneLib) (B : BufLib), RuneLib_scan U -> forall input s c s' c', scanning input s ->
  Scan s c = Some (s', c') ->
  exists w, rest s = w ++ rest s' /\ (c_token c' <> -1 -> w <> []) /\ (c_token c' = -1 -> rest s' = []).
Proof. exact @in_order. Qed.
Print Assumptions C39_order.

(** So any text is read to its end in at most as many tokens as it has runes, and
    the end of the file. *)
Theorem C39_whole : forall (X : FloatLib) (L : CaseLib) (U : RuneLib) (B : BufLib), RuneLib_scan U -> forall input s, scanning input s ->
  exists cs s', to_end s cs s' /\ rest s' = [] /\ (length cs <= length (rest s) + 1)%nat.
Proof. exact @whole. Qed.
Print Assumptions C39_whole.

(** After the end of the file, the end of the file. *)
Theorem C39_eof : forall (X : FloatLib) (L : CaseLib) (U : RuneLib) (B : BufLib), RuneLib_scan U -> forall input s c s' c', scanning input s ->
  rest s = [] -> Scan s c = Some (s', c') -> c_token c' = -1 /\ rest s' = [] /\ s_ids s' = s_ids s.
Proof. exact @eof_stays. Qed.
Print Assumptions C39_eof.

(** Every word of the language is recognised, behind any white space and
    comments, and what is left is what the grammar says. *)
Theorem C39_complete : forall (X : FloatLib) (L : CaseLib) (U : RuneLib) (B : BufLib), RuneLib_scan U -> forall input s c g w v f l, scanning input s ->
  rest s = g ++ w ++ f -> gap g -> lexeme w v f l ->
  exists s' c', Scan s c = Some (s', c') /\ rest s' = l /\ holds (s_ids s) v s' c'.
Proof. exact @complete. Qed.
Print Assumptions C39_complete.

(** And whatever [Scan] returns is right: a token is a word of the language behind
    white space and comments; the end of the file stands behind white space and
    comments - and perhaps a lone minus or slash; otherwise it is an error. *)
Theorem C39_sound : forall (X : FloatLib) (L : CaseLib) (U : RuneLib) (B : BufLib), RuneLib_scan U -> forall input s c s' c', scanning input s ->
  Scan s c = Some (s', c') ->
  (c_token c' = -1 /\ s_ids s' = s_ids s /\ exists g e, rest s = g ++ e /\ gap g /\ no_token e) \/
  (c_token c' = -3 /\ s_ids s' = s_ids s /\ (c_error c' <> None \/ bad_escape (rest s))) \/
  (exists g w f v, rest s = g ++ w ++ f /\ gap g /\ lexeme w v f (rest s') /\ holds (s_ids s) v s' c').
Proof. exact @sound. Qed.
Print Assumptions C39_sound.

Definition demo_text : String.string := "SELECT  Name, x'0aFf' -- all of it
  FROM ""My Table"" /* where /* */ <= -42;$7".
Example C39_case :
  demo_scans 11 (demo_scanner demo_text) =
    [ShownName (-5) (str "SELECT"); ShownName (-4) (str "name"); Shown 44; ShownBytes [x0a; xff];
     ShownName (-5) (str "FROM"); ShownName (-4) (str "My Table"); Shown (-13); ShownInteger (-42);
     Shown (-2); Shown (-10); Shown (-1)].
Proof. vm_compute. reflexivity. Qed.
(* the hypotheses of [C39_complete] *)
Example C39_complete_case : exists g w f, rest (demo_scanner "  -- one
 'it''s' 2") = g ++ w ++ f /\ gap g /\ lexeme w (TString (str "it's")) f [50] /\ scanning (runes "  -- one
 'it''s' 2") (demo_scanner "  -- one
 'it''s' 2").
Proof.
  exists (runes "  -- one
 "), (runes "'it''s'"), (runes " 2"). split; [reflexivity|]. split; [|split; [|apply demo_scanning]].
  - do 2 (apply gap_space; [reflexivity|]). refine (gap_line (runes " one") (runes " ") _ _).
    + vm_compute. intuition discriminate.
    + apply gap_space; [reflexivity|apply gap_nil].
  - apply (lx_string (runes "it''s") (runes "it's")).
    + do 2 (apply qb_rune; [discriminate|discriminate|]). apply qb_quote. apply qb_rune; [discriminate|discriminate|]. apply qb_nil.
    + exists [32]. repeat split; try discriminate. constructor; [reflexivity|constructor].
Qed.

(** C40.  A literal with the quotes of a text doubled is that text, in UTF-8; with
    [quote_ends f f], e.g. for an [f] that starts neither with white space nor a
    quote, scanning stops behind the closing quote. *)
Theorem C40_string_literal : forall (X : FloatLib) (L : CaseLib) (U : RuneLib) (B : BufLib), RuneLib_scan U -> forall input s c text f l, scanning input s ->
  Forall (fun r => 0 <= r) text -> rest s = 39 :: doubled text ++ 39 :: f -> quote_ends f l ->
  exists s' c', Scan s c = Some (s', c') /\ c_token c' = -6 /\ c_string c' = encode text /\ rest s' = l.
Proof. exact @string_literal. Qed.
Print Assumptions C40_string_literal.

Example C40_case :
  rest (demo_scanner "'a''b\''' ,") = 39 :: doubled (runes "a'b\'") ++ 39 :: [32; 44] /\ quote_ends [32; 44] [44] /\
  demo_scans 3 (demo_scanner "'a''b\''' ,") = [ShownText (str "a'b\'"); Shown 44; Shown (-1)].
Proof.
  split; [reflexivity|]. split; [|vm_compute; reflexivity].
  exists [32]. repeat split; try discriminate. constructor; [reflexivity|constructor].
Qed.

(** C41.  A hexadecimal literal is its bytes. *)
Theorem C41_bytes_literal : forall (X : FloatLib) (L : CaseLib) (U : RuneLib) (B : BufLib), RuneLib_scan U -> forall input s c q b f, scanning input s ->
  In q [120; 88] -> rest s = q :: 39 :: hex_text b ++ 39 :: f ->
  exists s' c', Scan s c = Some (s', c') /\ c_token c' = -7 /\ c_bytes c' = b_bytes (s_buffer s') /\
    b_look (s_buffer s') (c_bytes c') = b /\ rest s' = f.
Proof. exact @bytes_literal. Qed.
Print Assumptions C41_bytes_literal.

(** They do not stay, however: when a name is scanned next that is not longer, it
    stands where the bytes were. *)
Theorem C41_bytes_stay_refuted : forall (X : FloatLib) (L : CaseLib) (U : RuneLib) (B : BufLib), RuneLib_scan U -> forall input s c q b sp r w f s1 c1 c0 s2 c2,
  scanning input s -> In q [120; 88] -> Forall space sp -> Forall (fun x => 0 <= x < 128) (r :: w) ->
  lexeme (r :: w) (TName (encode (r :: w)) false) f f -> (length (r :: w) <= length b)%nat ->
  rest s = q :: 39 :: hex_text b ++ 39 :: sp ++ (r :: w) ++ f ->
  Scan s c = Some (s1, c1) -> Scan s1 c0 = Some (s2, c2) ->
  b_look (s_buffer s1) (c_bytes c1) = b /\
  b_look (s_buffer s2) (c_bytes c1) = map zb (r :: w) ++ skipn (length (r :: w)) b.
Proof. exact @alias. Qed.
Print Assumptions C41_bytes_stay_refuted.

Example C41_case : exists s1 c1 s2 c2,
  lexeme (runes "aB") (TName (encode (runes "aB")) false) [41] [41] /\
  Scan (demo_scanner "x'010203' aB)") c_zero = Some (s1, c1) /\ Scan s1 c_zero = Some (s2, c2) /\
  b_look (s_buffer s1) (c_bytes c1) = [x01; x02; x03] /\ b_look (s_buffer s2) (c_bytes c1) = str "aB" ++ [x03].
Proof.
  do 4 eexists. split.
  - apply (lx_name 97 [66] [41]); [now left|constructor; [now left|constructor]|cbn|discriminate].
    unfold name_rune. cbn. intuition discriminate.
  - split; [vm_compute; reflexivity|]. split; [vm_compute; reflexivity|]. split; reflexivity.
Qed.

(** C42.  A decimal number up to 2^63-1 is itself, with a minus its negative. *)
Theorem C42_number_literal : forall (X : FloatLib) (L : CaseLib) (U : RuneLib) (B : BufLib), RuneLib_scan U -> forall input s c sg k ds f, scanning input s ->
  sign_text sg k -> ds <> [] -> Forall digit ds -> dec_value ds < 2 ^ 63 ->
  no_start (fun x => x_is_digit x = true \/ x = 46) f -> rest s = sg ++ map bz ds ++ f ->
  exists s' c', Scan s c = Some (s', c') /\ c_token c' = -8 /\ c_integer c' = k * dec_value ds /\ rest s' = f.
Proof. exact @number_literal. Qed.
Print Assumptions C42_number_literal.

(** Greater ones are an error - also the one whose negative is an int64. *)
Theorem C42_too_large : forall (X : FloatLib) (L : CaseLib) (U : RuneLib) (B : BufLib), RuneLib_scan U -> forall input s c sg k ds f, scanning input s ->
  sign_text sg k -> ds <> [] -> Forall digit ds -> 2 ^ 63 <= dec_value ds ->
  no_start (fun x => x_is_digit x = true \/ x = 46) f -> rest s = sg ++ map bz ds ++ f ->
  exists s' c', Scan s c = Some (s', c') /\ c_token c' = -3 /\ c_error c' = Some SNumber /\ rest s' = f.
Proof. exact @large_literal. Qed.
Print Assumptions C42_too_large.

Example C42_case :
  demo_scans 1 (demo_scanner "9223372036854775807 ") = [ShownInteger 9223372036854775807] /\
  demo_scans 1 (demo_scanner "-9223372036854775807,") = [ShownInteger (-9223372036854775807)] /\
  rest (demo_scanner "-9223372036854775808") = [45] ++ map bz (str "9223372036854775808") ++ [] /\
  Forall digit (str "9223372036854775808") /\ dec_value (str "9223372036854775808") = 2 ^ 63 /\
  demo_scans 1 (demo_scanner "-9223372036854775808") = [ShownError (Some SNumber)].
Proof.
  repeat split; try (vm_compute; reflexivity).
  repeat (constructor; [unfold digit; vm_compute; split; discriminate|]). constructor.
Qed.

(** C43.  A minus or a slash at the end of the text is dropped: there, as behind
    an unclosed comment, is the end of the file, and all is read. *)
Theorem C43_nothing_ignored_refuted : forall (X : FloatLib) (L : CaseLib) (U : RuneLib) (B : BufLib), RuneLib_scan U -> forall input s c g e, scanning input s ->
  rest s = g ++ e -> gap g -> no_token e ->
  exists s', Scan s c = Some (s', set_token c (-1)) /\ rest s' = [] /\ s_ids s' = s_ids s.
Proof. exact @dropped. Qed.
Print Assumptions C43_nothing_ignored_refuted.

Example C43_case :
  no_token [45] /\ no_token [47] /\
  demo_scans 3 (demo_scanner "1 -") = [ShownInteger 1; Shown (-1); Shown (-1)] /\
  demo_scans 3 (demo_scanner "1 /") = [ShownInteger 1; Shown (-1); Shown (-1)] /\
  demo_scans 3 (demo_scanner "1 +") = [ShownInteger 1; Shown 43; Shown (-1)].
Proof. split; [constructor|]. split; [constructor|]. vm_compute. repeat split. Qed.
