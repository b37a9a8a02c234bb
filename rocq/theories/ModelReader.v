(** The scanner with a reader that may fail, parser/scanner/scanner.go.

    ModelScanner.v is about readers that deliver runes up to the end of the file.
    Here [s_in] holds what the calls of the reader's [ReadRune] return: a rune, or
    an error other than the end of the file, for which [tError] stands; what error
    it is does not matter to the code.  Behind an error there may be more. *)

From Verif Require Export ModelScanner.

Section Reader.
  Context {X : FloatLib} {L : CaseLib} {U : RuneLib} {B : BufLib}.

  (** [readRune], parser/scanner/scanner.go:254-278.  A reader that fails returns
      the rune 0, as [bufio.Reader] does. *)
  Definition readRuneE (s : scanner) (c : sctx) : Z * scanner * sctx :=
    if s_unread s then
      (s_read s,
       {| s_in := s_in s; s_unread := false; s_read := s_read s; s_line := s_line s;
          s_column := s_column s; s_buffer := s_buffer s; s_ids := s_ids s |}, c)
    else
      match s_in s with
      | [] =>
          (tEOF,
           {| s_in := []; s_unread := false; s_read := tEOF; s_line := s_line s;
              s_column := s_column s; s_buffer := s_buffer s; s_ids := s_ids s |}, c)
      | r :: rest =>
          if r =? tError then
            (tError,
             {| s_in := rest; s_unread := false; s_read := 0; s_line := s_line s;
                s_column := s_column s; s_buffer := s_buffer s; s_ids := s_ids s |}, set_error c SRead)
          else
            (r,
             {| s_in := rest; s_unread := false; s_read := r;
                s_line := if r =? 10 then s_line s + 1 else s_line s;
                s_column := if r =? 10 then 0 else s_column s + 1;
                s_buffer := s_buffer s; s_ids := s_ids s |}, c)
      end.

  (** The loop of [scanIdentifier], parser/scanner/scanner.go:285-297; [true] is
      returning [token.Error]. *)
  Fixpoint identifierLoopE (fuel : nat) (s : scanner) (c : sctx) (r : Z) : option (scanner * sctx * bool) :=
    match fuel with
    | O => None
    | S fuel' =>
        let s := writeRune s r in
        let '(r, s, c) := readRuneE s c in
        if r =? tEOF then Some (s, c, false)
        else if r =? tError then Some (s, c, true)
        else if negb (x_is_letter r) && negb (x_is_digit r) && negb (r =? 95) && negb (r =? 36) then
          Some (unreadRune s, c, false)
        else identifierLoopE fuel' s c r
    end.

  (** [scanIdentifier], parser/scanner/scanner.go:284-304. *)
  Definition scanIdentifierE (fuel : nat) (s : scanner) (c : sctx) (r : Z) : scanned :=
    match identifierLoopE fuel s c r with
    | None => None
    | Some (s, c, true) => Some (s, c, tError)
    | Some (s, c, false) =>
        let '(t, id) := ID (s_ids s) (b_string (s_buffer s)) false in
        Some (set_ids s t, set_ident c id, if IsReserved id then tReserved else tIdentifier)
    end.

  (** The loop of [scanNumber], parser/scanner/scanner.go:308-322. *)
  Fixpoint numberLoopE (fuel : nat) (s : scanner) (c : sctx) (dbl : bool) (r : Z) : option (scanner * sctx * option bool) :=
    match fuel with
    | O => None
    | S fuel' =>
        let s := writeRune s r in
        let '(r, s, c) := readRuneE s c in
        if r =? tEOF then Some (s, c, Some dbl)
        else if r =? tError then Some (s, c, None)
        else if negb dbl && (r =? tDot) then numberLoopE fuel' s c true r
        else if negb (x_is_digit r) then Some (unreadRune s, c, Some dbl)
        else numberLoopE fuel' s c dbl r
    end.

  (** [scanNumber], parser/scanner/scanner.go:306-341; see [scanNumber] of
      ModelScanner.v. *)
  Definition scanNumberE (fuel : nat) (s : scanner) (c : sctx) (r sign : Z) : scanned :=
    match numberLoopE fuel s c false r with
    | None => None
    | Some (s, c, None) => Some (s, c, tError)
    | Some (s, c, Some true) =>
        match x_parse_float (b_string (s_buffer s)) with
        | None => Some (s, set_error c SNumber, tError)
        | Some p => Some (s, set_float c (if sign <? 0 then f_neg p else p), tFloat)
        end
    | Some (s, c, Some false) =>
        match parse_int (b_string (s_buffer s)) with
        | None => Some (s, set_error c SNumber, tError)
        | Some i => Some (s, set_integer c (i64 (i * sign)), tInteger)
        end
    end.

  (** The loop of [scanParameter], parser/scanner/scanner.go:344-356. *)
  Fixpoint parameterLoopE (fuel : nat) (s : scanner) (c : sctx) (r : Z) : option (scanner * sctx * bool) :=
    match fuel with
    | O => None
    | S fuel' =>
        let s := writeRune s r in
        let '(r, s, c) := readRuneE s c in
        if r =? tEOF then Some (s, c, false)
        else if r =? tError then Some (s, c, true)
        else if negb (x_is_digit r) then Some (unreadRune s, c, false)
        else parameterLoopE fuel' s c r
    end.

  (** [scanParameter], parser/scanner/scanner.go:343-370. *)
  Definition scanParameterE (fuel : nat) (s : scanner) (c : sctx) (r : Z) : scanned :=
    match parameterLoopE fuel s c r with
    | None => None
    | Some (s, c, true) => Some (s, c, tError)
    | Some (s, c, false) =>
        match parse_int (b_string (s_buffer s)) with
        | None => Some (s, set_error c SNumber, tError)
        | Some i =>
            let c := set_integer c i in
            if i =? 0 then Some (s, set_error c SZeroParameter, tError)
            else Some (s, c, tParameter)
        end
    end.

  (** [scanQuotedIdentifier], parser/scanner/scanner.go:372-390. *)
  Fixpoint scanQuotedIdentifierE (fuel : nat) (s : scanner) (c : sctx) (delim : Z) : scanned :=
    match fuel with
    | O => None
    | S fuel' =>
        let '(r, s, c) := readRuneE s c in
        if r =? tEOF then Some (s, set_error c SQuotedIdentifier, tError)
        else if r =? tError then Some (s, c, tError)
        else if r =? delim then
          let '(t, id) := ID (s_ids s) (b_string (s_buffer s)) true in
          Some (set_ids s t, set_ident c id, tIdentifier)
        else scanQuotedIdentifierE fuel' (writeRune s r) c delim
    end.

  (** [scanHexDigit], parser/scanner/scanner.go:392-405; [None] is [0, false]. *)
  Definition scanHexDigitE (s : scanner) (c : sctx) : scanner * sctx * option Z :=
    let '(r, s, c) := readRuneE s c in
    if (48 <=? r) && (r <=? 57) then (s, c, Some (r - 48))
    else if (65 <=? r) && (r <=? 70) then (s, c, Some (r - 65 + 10))
    else if (97 <=? r) && (r <=? 102) then (s, c, Some (r - 97 + 10))
    else (s, if r =? tError then c else set_error c SHexDigit, None).

  (** [scanHex], parser/scanner/scanner.go:407-417. *)
  Definition scanHexE (s : scanner) (c : sctx) : scanner * sctx * Z :=
    match scanHexDigitE s c with
    | (s, c, None) => (s, c, tError)
    | (s, c, Some d1) =>
        match scanHexDigitE s c with
        | (s, c, None) => (s, c, tError)
        | (s, c, Some d2) => (s, c, d1 * 16 + d2)
        end
    end.

  (** The loop of [scanUnicode], parser/scanner/scanner.go:421-428. *)
  Fixpoint unicodeLoopE (digits : nat) (s : scanner) (c : sctx) (u : Z) : scanner * sctx * option Z :=
    match digits with
    | O => (s, c, Some u)
    | S digits' =>
        match scanHexDigitE s c with
        | (s, c, None) => (s, c, None)
        | (s, c, Some d) => unicodeLoopE digits' s c (u * 16 + d)
        end
    end.

  (** [scanUnicode], parser/scanner/scanner.go:419-430. *)
  Definition scanUnicodeE (s : scanner) (c : sctx) (digits : nat) : scanner * sctx * Z :=
    match unicodeLoopE digits s c 0 with
    | (s, c, None) => (s, c, tError)
    | (s, c, Some u) => (s, c, i32 u)
    end.

  (** [scanOctalDigit], parser/scanner/scanner.go:432-441. *)
  Definition scanOctalDigitE (s : scanner) (c : sctx) : scanner * sctx * option Z :=
    let '(r, s, c) := readRuneE s c in
    if (48 <=? r) && (r <=? 55) then (s, c, Some (r - 48))
    else (s, if r =? tError then c else set_error c SOctalDigit, None).

  (** [scanOctal], parser/scanner/scanner.go:443-455. *)
  Definition scanOctalE (s : scanner) (c : sctx) (r : Z) : scanner * sctx * Z :=
    let octal := (r - 48) mod 256 in
    match scanOctalDigitE s c with
    | (s, c, None) => (s, c, tError)
    | (s, c, Some d) =>
        let octal := (octal * 8 + d) mod 256 in
        match scanOctalDigitE s c with
        | (s, c, None) => (s, c, tError)
        | (s, c, Some d) => (s, c, (octal * 8 + d) mod 256)
        end
    end.

  (** The loop over the white space behind a quote,
      parser/scanner/scanner.go:488-494. *)
  Fixpoint quoteSpaceE (fuel : nat) (s : scanner) (c : sctx) (r : Z) (nl : bool) : option (scanner * sctx * Z * bool) :=
    match fuel with
    | O => None
    | S fuel' =>
        if x_is_space r then
          let nl := if (r =? 10) || (r =? 13) then true else nl in
          let '(r, s, c) := readRuneE s c in
          quoteSpaceE fuel' s c r nl
        else Some (s, c, r, nl)
    end.

  (** The [switch] on the rune behind a backslash,
      parser/scanner/scanner.go:510-534. *)
  Definition scanEscapeE (s : scanner) (c : sctx) : scanner * sctx * Z :=
    let '(r, s, c) := readRuneE s c in
    if r =? 97 then (s, c, 7)
    else if r =? 98 then (s, c, 8)
    else if r =? 116 then (s, c, 9)
    else if r =? 110 then (s, c, 10)
    else if r =? 118 then (s, c, 11)
    else if r =? 102 then (s, c, 12)
    else if r =? 114 then (s, c, 13)
    else if r =? 120 then scanHexE s c
    else if r =? 117 then scanUnicodeE s c 4
    else if r =? 85 then scanUnicodeE s c 8
    else if (48 <=? r) && (r <=? 55) then scanOctalE s c r
    else (s, c, r).

  (** Lines 509-543 of [scanQuotedConstant], parser/scanner/scanner.go. *)
  Definition quotedRuneE (s : scanner) (c : sctx) (esc : bool) (r : Z) : scanner * sctx * option Z :=
    if (r =? 92) && esc then
      let '(s, c, r) := scanEscapeE s c in
      if r =? tEOF then (s, set_error c SIncompleteEscape, None)
      else if r =? tError then (s, c, None)
      else (s, c, Some r)
    else (s, c, Some r).

  (** [scanQuotedConstant], parser/scanner/scanner.go:475-547. *)
  Fixpoint scanQuotedConstantE (fuel : nat) (s : scanner) (c : sctx) (esc : bool) : scanned :=
    match fuel with
    | O => None
    | S fuel' =>
        let '(r, s, c) := readRuneE s c in
        if r =? tEOF then Some (s, set_error c SMissingQuote, tError)
        else if r =? tError then Some (s, c, tError)
        else
          let put (s : scanner) (c : sctx) (r : Z) : scanned :=
            match quotedRuneE s c esc r with
            | (s, c, None) => Some (s, c, tError)
            | (s, c, Some r) => scanQuotedConstantE fuel' (writeRune s r) c esc
            end in
          if r =? 39 then
            let '(r, s, c) := readRuneE s c in
            if x_is_space r then
              match quoteSpaceE fuel s c r false with
              | None => None
              | Some (s, c, r, nl) =>
                  if (r =? 39) && nl then scanQuotedConstantE fuel' s c esc
                  else if r =? tError then Some (s, c, tError)
                  else Some (unreadRune s, c, tString)
              end
            else if negb (r =? 39) then Some (unreadRune s, c, tString)
            else put s c r
          else put s c r
    end.

  (** [scanString], parser/scanner/scanner.go:457-464. *)
  Definition scanStringE (fuel : nat) (s : scanner) (c : sctx) (esc : bool) : scanned :=
    match scanQuotedConstantE fuel s c esc with
    | None => None
    | Some (s, c, r) =>
        if r =? tError then Some (s, c, tError)
        else Some (s, set_string c (b_string (s_buffer s)), tString)
    end.

  (** [scanBytes], parser/scanner/scanner.go:466-473. *)
  Definition scanBytesE (fuel : nat) (s : scanner) (c : sctx) (esc : bool) : scanned :=
    match scanQuotedConstantE fuel s c esc with
    | None => None
    | Some (s, c, r) =>
        if r =? tError then Some (s, c, tError)
        else Some (s, set_bytes c (b_bytes (s_buffer s)), tBytes)
    end.

  (** [scanHexBytes], parser/scanner/scanner.go:549-575. *)
  Fixpoint scanHexBytesE (fuel : nat) (s : scanner) (c : sctx) : scanned :=
    match fuel with
    | O => None
    | S fuel' =>
        let '(r, s, c) := readRuneE s c in
        if r =? tEOF then Some (s, set_error c SMissingQuote, tError)
        else if r =? tError then Some (s, c, tError)
        else if r =? 39 then Some (s, set_bytes c (b_bytes (s_buffer s)), tBytes)
        else
          match scanHexDigitE (unreadRune s) c with
          | (s, c, None) => Some (s, c, tError)
          | (s, c, Some d1) =>
              match scanHexDigitE s c with
              | (s, c, None) => Some (s, c, tError)
              | (s, c, Some d2) => scanHexBytesE fuel' (writeByte s (zb (d1 * 16 + d2))) c
              end
          end
    end.

  (** Skipping white space, parser/scanner/scanner.go:114-125. *)
  Fixpoint skipWhitespaceE (fuel : nat) (s : scanner) (c : sctx) : option (Z * scanner * sctx) :=
    match fuel with
    | O => None
    | S fuel' =>
        let '(r, s, c) := readRuneE s c in
        if (r <? 0) || negb (x_is_space r) then Some (r, s, c) else skipWhitespaceE fuel' s c
    end.

  (** The loop over a [--] comment, parser/scanner/scanner.go:133-142; [Some r]
      is returning [r]. *)
  Fixpoint lineCommentE (fuel : nat) (s : scanner) (c : sctx) : option (option Z * scanner * sctx) :=
    match fuel with
    | O => None
    | S fuel' =>
        let '(r2, s, c) := readRuneE s c in
        if r2 <? 0 then Some (Some r2, s, c)
        else if r2 =? 10 then Some (None, s, c)
        else lineCommentE fuel' s c
    end.

  (** The loop over a [/*] comment, parser/scanner/scanner.go:152-164. *)
  Fixpoint blockCommentE (fuel : nat) (s : scanner) (c : sctx) (p : Z) : option (option Z * scanner * sctx) :=
    match fuel with
    | O => None
    | S fuel' =>
        let '(r2, s, c) := readRuneE s c in
        if r2 <? 0 then Some (Some r2, s, c)
        else if (p =? tStar) && (r2 =? tSlash) then Some (None, s, c)
        else blockCommentE fuel' s c r2
    end.

  (** What follows a minus or a slash, parser/scanner/scanner.go:131-172. *)
  Definition commentsE (fuel : nat) (s : scanner) (c : sctx) (r : Z) : option (comment * sctx) :=
    let over (o : option (option Z * scanner * sctx)) : option (comment * sctx) :=
      match o with
      | None => None
      | Some (Some r2, s, c) => Some (Return r2 s, c)
      | Some (None, s, c) => Some (Again s, c)
      end in
    if r =? tMinus then
      let '(r2, s, c) := readRuneE s c in
      if r2 =? tMinus then over (lineCommentE fuel s c)
      else if r2 <? 0 then Some (Return r2 s, c)
      else Some (Proceed (unreadRune s), c)
    else if r =? tSlash then
      let '(r2, s, c) := readRuneE s c in
      if r2 =? tStar then over (blockCommentE fuel s c 0)
      else if r2 <? 0 then Some (Return r2 s, c)
      else Some (Proceed (unreadRune s), c)
    else Some (Proceed s, c).

  (** The rest of [scan], parser/scanner/scanner.go:174-251. *)
  Definition scanTokenE (fuel : nat) (s : scanner) (c : sctx) (r : Z) : scanned :=
    let c := set_position c (s_line s) (s_column s) in
    if (r =? 101) || (r =? 69) then
      let '(r2, s, c) := readRuneE s c in
      if r2 =? 39 then scanStringE fuel s c true
      else scanIdentifierE fuel (unreadRune s) c r
    else if r =? 98 then
      let '(r2, s, c) := readRuneE s c in
      if r2 =? 39 then scanBytesE fuel s c true
      else scanIdentifierE fuel (unreadRune s) c r
    else if (r =? 120) || (r =? 88) then
      let '(r2, s, c) := readRuneE s c in
      if r2 =? 39 then scanHexBytesE fuel s c
      else scanIdentifierE fuel (unreadRune s) c r
    else if x_is_letter r || (r =? 95) then scanIdentifierE fuel s c r
    else if x_is_digit r then scanNumberE fuel s c r 1
    else if r =? tPlus then
      let '(r, s, c) := readRuneE s c in
      if x_is_digit r then scanNumberE fuel s c r 1
      else Some (unreadRune s, c, tPlus)
    else if r =? tMinus then
      let '(r, s, c) := readRuneE s c in
      if x_is_digit r then scanNumberE fuel s c r (-1)
      else Some (unreadRune s, c, tMinus)
    else if (r =? 34) || (r =? 96) then scanQuotedIdentifierE fuel s c r
    else if r =? 91 then scanQuotedIdentifierE fuel s c 93
    else if r =? 39 then scanStringE fuel s c false
    else if IsOpRune r then
      let s := writeRune s r in
      let '(r2, s, c) := readRuneE s c in
      if (r2 =? tMinus) || (r2 =? tPlus) then Some (unreadRune s, c, r)
      else if IsOpRune r2 then
        let s := writeRune s r2 in
        match Operators r r2 with
        | Some r3 => Some (s, c, r3)
        | None => Some (s, set_error c SUnexpectedOperator, tError)
        end
      else Some (unreadRune s, c, r)
    else if (r =? tDot) || (r =? tComma) || (r =? tLParen) || (r =? tRParen) || (r =? tAtSign) then
      Some (s, c, r)
    else if r =? 36 then
      let '(r, s, c) := readRuneE s c in
      if negb (x_is_digit r) then Some (s, set_error c SExpectedParameter, tError)
      else scanParameterE fuel s c r
    else Some (s, set_error c SUnexpectedCharacter, tError).

  (** [scan], parser/scanner/scanner.go:112-252. *)
  Fixpoint scanE (fuel : nat) (s : scanner) (c : sctx) : scanned :=
    match fuel with
    | O => None
    | S fuel' =>
        match skipWhitespaceE fuel s c with
        | None => None
        | Some (r, s, c) =>
            if r <? 0 then Some (s, c, r)
            else if r =? 59 then Some (s, c, tEndOfStatement)
            else
              match commentsE fuel s c r with
              | None => None
              | Some (Again s, c) => scanE fuel' s c
              | Some (Return r2 s, c) => Some (s, c, r2)
              | Some (Proceed s, c) => scanTokenE fuel s c r
              end
        end
    end.

  (** [Scan], parser/scanner/scanner.go:69-73. *)
  Definition ScanE (s : scanner) (c : sctx) : option (scanner * sctx) :=
    match scanE (scan_fuel s) (set_buffer s (b_reset (s_buffer s))) c with
    | None => None
    | Some (s, c, t) => Some (s, set_token c t)
    end.
End Reader.
