(** The scanner: parser/token and parser/scanner.

    The input is the finite list of runes the reader delivers before it reports
    the end of the file; how bytes become runes and errors of the reader other
    than the end of the file are not modelled.  Loops carry fuel; [None] is
    running out of it. *)

From Verif Require Export ModelValue ModelIdent ModelRune.

(** The tokens, parser/token/token.go:7-27. *)
Notation tEOF := (-1).
Notation tEndOfStatement := (-2).
Notation tError := (-3).
Notation tIdentifier := (-4).
Notation tReserved := (-5).
Notation tString := (-6).
Notation tBytes := (-7).
Notation tInteger := (-8).
Notation tFloat := (-9).
Notation tParameter := (-10).
Notation tBarBar := (-11).
Notation tLessLess := (-12).
Notation tLessEqual := (-13).
Notation tLessGreater := (-14).
Notation tGreaterGreater := (-15).
Notation tGreaterEqual := (-16).
Notation tEqualEqual := (-17).
Notation tBangEqual := (-18).

(** The runes that are tokens themselves, parser/token/token.go:29-49. *)
Notation tComma := 44.
Notation tDot := 46.
Notation tLParen := 40.
Notation tRParen := 41.
Notation tAtSign := 64.
Notation tMinus := 45.
Notation tPlus := 43.
Notation tStar := 42.
Notation tSlash := 47.
Notation tPercent := 37.
Notation tEqual := 61.
Notation tLess := 60.
Notation tGreater := 62.
Notation tAmpersand := 38.
Notation tBar := 124.
Notation tBang := 33.

(** [opRunes] and [IsOpRune], parser/token/token.go:63-66, 70-72. *)
Definition opRunes : list Z :=
  [tMinus; tPlus; tStar; tSlash; tPercent; tEqual; tLess; tGreater; tAmpersand; tBar; tBang].
Definition IsOpRune (r : Z) : bool := existsb (Z.eqb r) opRunes.

(** [operators] and its inverse [Operators], parser/token/token.go:51-60, 67,
    84-88; the two bytes of an operator are given as runes, as the scanner
    looks up a string it made of two of [opRunes]. *)
Definition operators : list (Z * Z * Z) :=
  [(tBar, tBar, tBarBar); (tLess, tLess, tLessLess); (tLess, tEqual, tLessEqual);
   (tLess, tGreater, tLessGreater); (tGreater, tGreater, tGreaterGreater);
   (tGreater, tEqual, tGreaterEqual); (tEqual, tEqual, tEqualEqual); (tBang, tEqual, tBangEqual)].
Definition Operators (r r2 : Z) : option Z :=
  option_map snd (find (fun o => (fst (fst o) =? r) && (snd (fst o) =? r2)) operators).

(** How much more than requested Go's allocator gives to a [bytes.Buffer]
    that grows; the rounding to size classes is not modelled.  The buffer is
    that of parser/scanner/scanner.go:46. *)
Class BufLib : Type := { x_extra : nat -> nat }.

(** A [bytes.Buffer] that is never read from (parser/scanner/scanner.go:46):
    the array in use, as long as its capacity, how much of it is written, and
    the arrays given up, which slices returned by [Bytes] may still share. *)
Record buffer : Set := { b_old : list bytes; b_arr : bytes; b_len : nat }.

(** The buffer of a new scanner, parser/scanner/scanner.go:46. *)
Definition b_empty : buffer := {| b_old := []; b_arr := []; b_len := 0 |}.

(** [Buffer.Reset] (parser/scanner/scanner.go:70) keeps the array. *)
Definition b_reset (b : buffer) : buffer :=
  {| b_old := b_old b; b_arr := b_arr b; b_len := 0 |}.

(** [Buffer.grow] for a buffer that was not read from: a first array of 64
    bytes, then at least twice the capacity; see [Buffer.WriteByte] and
    [Buffer.WriteRune] (parser/scanner/scanner.go:223-385, 543, 570). *)
Definition b_grow {B : BufLib} (b : buffer) (n : nat) : buffer :=
  if (b_len b + n <=? length (b_arr b))%nat then b
  else
    let cap :=
      match b_arr b with
      | [] => Nat.max 64 n
      | _ => let c := Nat.max (b_len b + n) (2 * length (b_arr b)) in (c + x_extra c)%nat
      end in
    {| b_old := b_old b ++ [b_arr b];
       b_arr := firstn (b_len b) (b_arr b) ++ repeat x00 (cap - b_len b);
       b_len := b_len b |}.

(** Writing bytes at the end of a buffer with room for them.  Part of the
    calls [WriteRune] and [WriteByte], parser/scanner/scanner.go:223-570. *)
Definition b_put (b : buffer) (w : bytes) : buffer :=
  {| b_old := b_old b;
     b_arr := firstn (b_len b) (b_arr b) ++ w ++ skipn (b_len b + length w) (b_arr b);
     b_len := b_len b + length w |}.

(** [Buffer.WriteByte] (parser/scanner/scanner.go:570). *)
Definition b_writeByte {B : BufLib} (b : buffer) (x : byte) : buffer := b_put (b_grow b 1) [x].

(** [Buffer.WriteRune] (parser/scanner/scanner.go:223, 229, 286, 309, 345, 385,
    543): one byte for ASCII, otherwise room for four bytes is made. *)
Definition b_writeRune {B : BufLib} (b : buffer) (r : Z) : buffer :=
  if (0 <=? r) && (r <? 128) then b_writeByte b (zb r)
  else b_put (b_grow b 4) (utf8_encode r).

(** [Buffer.String] (parser/scanner/scanner.go:230-233, 244, 299, 326, 328,
    359, 388, 462) copies what is written. *)
Definition b_string (b : buffer) : bytes := firstn (b_len b) (b_arr b).

(** [Buffer.Bytes] (parser/scanner/scanner.go:471, 573) does not: it is the
    written part of the array in use. *)
Record slice : Set := { sl_array : nat; sl_len : nat }.
Definition b_bytes (b : buffer) : slice :=
  {| sl_array := length (b_old b); sl_len := b_len b |}.

(** What a slice of such an array holds by now.  The slices are those of
    parser/scanner/scanner.go:471, 573. *)
Definition b_look (b : buffer) (l : slice) : bytes :=
  firstn (sl_len l) (nth (sl_array l) (b_old b ++ [b_arr b]) []).

(** The errors of the scanner, parser/scanner/scanner.go:15-19, 233, 244, 250,
    331, 361, 376, 402, 438; only the kinds of the formatted ones. *)
Inductive serror : Set :=
| SMissingQuote | SIncompleteEscape | SZeroParameter | SUnexpectedOperator
| SExpectedParameter | SUnexpectedCharacter | SNumber | SQuotedIdentifier
| SHexDigit | SOctalDigit
| SRead. (* an error of the reader, 269: only in ModelReader.v *)

(** [ScanCtx], parser/scanner/scanner.go:27-36, without the file name; [Error]
    is nil when [c_error] is [None].  Scanning a token sets some fields and
    leaves the others as they were. *)
Record sctx : Set := {
  c_token : Z;
  c_error : option serror;
  c_ident : Z;
  c_string : bytes;
  c_bytes : slice;
  c_integer : Z;
  c_float : Z;
  c_line : Z;
  c_column : Z
}.

(** The zero [ScanCtx] (parser/parser.go:19). *)
Definition c_zero : sctx :=
  {| c_token := 0; c_error := None; c_ident := 0; c_string := [];
     c_bytes := {| sl_array := 0; sl_len := 0 |}; c_integer := 0; c_float := 0;
     c_line := 0; c_column := 0 |}.

(** Assignments to the fields of [ScanCtx] (parser/scanner/scanner.go:72, 174-175,
    233, 244, 250, 299, 326-338, 359-365, 376, 388, 402, 438, 462, 471, 479, 537, 553, 573). *)
Definition set_token (c : sctx) (t : Z) : sctx :=
  {| c_token := t; c_error := c_error c; c_ident := c_ident c; c_string := c_string c;
     c_bytes := c_bytes c; c_integer := c_integer c; c_float := c_float c;
     c_line := c_line c; c_column := c_column c |}.
Definition set_error (c : sctx) (e : serror) : sctx :=
  {| c_token := c_token c; c_error := Some e; c_ident := c_ident c; c_string := c_string c;
     c_bytes := c_bytes c; c_integer := c_integer c; c_float := c_float c;
     c_line := c_line c; c_column := c_column c |}.
Definition set_ident (c : sctx) (id : Z) : sctx :=
  {| c_token := c_token c; c_error := c_error c; c_ident := id; c_string := c_string c;
     c_bytes := c_bytes c; c_integer := c_integer c; c_float := c_float c;
     c_line := c_line c; c_column := c_column c |}.
Definition set_string (c : sctx) (s : bytes) : sctx :=
  {| c_token := c_token c; c_error := c_error c; c_ident := c_ident c; c_string := s;
     c_bytes := c_bytes c; c_integer := c_integer c; c_float := c_float c;
     c_line := c_line c; c_column := c_column c |}.
Definition set_bytes (c : sctx) (l : slice) : sctx :=
  {| c_token := c_token c; c_error := c_error c; c_ident := c_ident c; c_string := c_string c;
     c_bytes := l; c_integer := c_integer c; c_float := c_float c;
     c_line := c_line c; c_column := c_column c |}.
Definition set_integer (c : sctx) (i : Z) : sctx :=
  {| c_token := c_token c; c_error := c_error c; c_ident := c_ident c; c_string := c_string c;
     c_bytes := c_bytes c; c_integer := i; c_float := c_float c;
     c_line := c_line c; c_column := c_column c |}.
Definition set_float (c : sctx) (p : Z) : sctx :=
  {| c_token := c_token c; c_error := c_error c; c_ident := c_ident c; c_string := c_string c;
     c_bytes := c_bytes c; c_integer := c_integer c; c_float := p;
     c_line := c_line c; c_column := c_column c |}.
Definition set_position (c : sctx) (line column : Z) : sctx :=
  {| c_token := c_token c; c_error := c_error c; c_ident := c_ident c; c_string := c_string c;
     c_bytes := c_bytes c; c_integer := c_integer c; c_float := c_float c;
     c_line := line; c_column := column |}.

(** [Scanner], parser/scanner/scanner.go:38-47, with the runes the reader has
    still to deliver for [rr], and the table of identifiers of package types,
    which is global in the code. *)
Record scanner : Set := {
  s_in : list Z;
  s_unread : bool;
  s_read : Z;
  s_line : Z;
  s_column : Z;
  s_buffer : buffer;
  s_ids : idtable
}.

(** [Scanner.Init], parser/scanner/scanner.go:57-67. *)
Definition scannerInit (ids : idtable) (input : list Z) : scanner :=
  {| s_in := input; s_unread := false; s_read := 0; s_line := 1; s_column := 0;
     s_buffer := b_empty; s_ids := ids |}.

(** Assignments to [s.buffer] (parser/scanner/scanner.go:70, 223-570) and to the
    global table (299, 388). *)
Definition set_buffer (s : scanner) (b : buffer) : scanner :=
  {| s_in := s_in s; s_unread := s_unread s; s_read := s_read s; s_line := s_line s;
     s_column := s_column s; s_buffer := b; s_ids := s_ids s |}.
Definition set_ids (s : scanner) (t : idtable) : scanner :=
  {| s_in := s_in s; s_unread := s_unread s; s_read := s_read s; s_line := s_line s;
     s_column := s_column s; s_buffer := s_buffer s; s_ids := t |}.

(** [readRune], parser/scanner/scanner.go:254-278. *)
Definition readRune (s : scanner) : Z * scanner :=
  if s_unread s then
    (s_read s,
     {| s_in := s_in s; s_unread := false; s_read := s_read s; s_line := s_line s;
        s_column := s_column s; s_buffer := s_buffer s; s_ids := s_ids s |})
  else
    match s_in s with
    | [] =>
        (tEOF,
         {| s_in := []; s_unread := false; s_read := tEOF; s_line := s_line s;
            s_column := s_column s; s_buffer := s_buffer s; s_ids := s_ids s |})
    | r :: rest =>
        (r,
         {| s_in := rest; s_unread := false; s_read := r;
            s_line := if r =? 10 then s_line s + 1 else s_line s;
            s_column := if r =? 10 then 0 else s_column s + 1;
            s_buffer := s_buffer s; s_ids := s_ids s |})
    end.

(** [unreadRune], parser/scanner/scanner.go:280-282. *)
Definition unreadRune (s : scanner) : scanner :=
  {| s_in := s_in s; s_unread := true; s_read := s_read s; s_line := s_line s;
     s_column := s_column s; s_buffer := s_buffer s; s_ids := s_ids s |}.

(** [RuneReader], parser/scanner/scanner.go:79-95: drops what the reader
    delivers up to the end of the line; a rune that was unread stays. *)
Fixpoint dropLine (input : list Z) : list Z * bool :=
  match input with
  | [] => ([], false)
  | r :: rest => if r =? 10 then (rest, true) else dropLine rest
  end.
Definition RuneReader (s : scanner) : scanner :=
  let '(rest, nl) := dropLine (s_in s) in
  {| s_in := rest; s_unread := s_unread s; s_read := s_read s;
     s_line := if nl then s_line s + 1 else s_line s;
     s_column := if nl then 0 else s_column s;
     s_buffer := s_buffer s; s_ids := s_ids s |}.

(** [runeReader.ReadRune], parser/scanner/scanner.go:97-110; [None] is the end
    of the file. *)
Definition runeReaderReadRune (s : scanner) : option Z * scanner :=
  match s_in s with
  | [] => (None, s)
  | r :: rest =>
      (Some r,
       {| s_in := rest; s_unread := s_unread s; s_read := s_read s;
          s_line := if r =? 10 then s_line s + 1 else s_line s;
          s_column := if r =? 10 then 0 else s_column s + 1;
          s_buffer := s_buffer s; s_ids := s_ids s |})
  end.

Section Scanner.
  Context {X : FloatLib} {L : CaseLib} {U : RuneLib} {B : BufLib}.

  (** [s.buffer.WriteRune], e.g. parser/scanner/scanner.go:286, and
      [s.buffer.WriteByte], parser/scanner/scanner.go:570. *)
  Definition writeRune (s : scanner) (r : Z) : scanner := set_buffer s (b_writeRune (s_buffer s) r).
  Definition writeByte (s : scanner) (x : byte) : scanner := set_buffer s (b_writeByte (s_buffer s) x).

  (** The scanner after a token was scanned, the context and the token. *)
  Definition scanned : Type := option (scanner * sctx * Z).

  (** The loop of [scanIdentifier], parser/scanner/scanner.go:285-297. *)
  Fixpoint identifierLoop (fuel : nat) (s : scanner) (r : Z) : option scanner :=
    match fuel with
    | O => None
    | S fuel' =>
        let s := writeRune s r in
        let '(r, s) := readRune s in
        if r =? tEOF then Some s
        else if negb (x_is_letter r) && negb (x_is_digit r) && negb (r =? 95) && negb (r =? 36) then
          Some (unreadRune s)
        else identifierLoop fuel' s r
    end.

  (** [scanIdentifier], parser/scanner/scanner.go:284-304. *)
  Definition scanIdentifier (fuel : nat) (s : scanner) (c : sctx) (r : Z) : scanned :=
    match identifierLoop fuel s r with
    | None => None
    | Some s =>
        let '(t, id) := ID (s_ids s) (b_string (s_buffer s)) false in
        Some (set_ids s t, set_ident c id, if IsReserved id then tReserved else tIdentifier)
    end.

  (** The loop of [scanNumber], parser/scanner/scanner.go:308-322. *)
  Fixpoint numberLoop (fuel : nat) (s : scanner) (dbl : bool) (r : Z) : option (scanner * bool) :=
    match fuel with
    | O => None
    | S fuel' =>
        let s := writeRune s r in
        let '(r, s) := readRune s in
        if r =? tEOF then Some (s, dbl)
        else if negb dbl && (r =? tDot) then numberLoop fuel' s true r
        else if negb (x_is_digit r) then Some (unreadRune s, dbl)
        else numberLoop fuel' s dbl r
    end.

  (** [scanNumber], parser/scanner/scanner.go:306-341.  When parsing fails,
      the code also stores what [strconv] returns beside the error; as the token
      is then an error, that value is never read.  [ParseFloat] of digits is
      not a NaN, so multiplying by -1 flips the sign. *)
  Definition scanNumber (fuel : nat) (s : scanner) (c : sctx) (r sign : Z) : scanned :=
    match numberLoop fuel s false r with
    | None => None
    | Some (s, true) =>
        match x_parse_float (b_string (s_buffer s)) with
        | None => Some (s, set_error c SNumber, tError)
        | Some p => Some (s, set_float c (if sign <? 0 then f_neg p else p), tFloat)
        end
    | Some (s, false) =>
        match parse_int (b_string (s_buffer s)) with
        | None => Some (s, set_error c SNumber, tError)
        | Some i => Some (s, set_integer c (i64 (i * sign)), tInteger)
        end
    end.

  (** The loop of [scanParameter], parser/scanner/scanner.go:344-356. *)
  Fixpoint parameterLoop (fuel : nat) (s : scanner) (r : Z) : option scanner :=
    match fuel with
    | O => None
    | S fuel' =>
        let s := writeRune s r in
        let '(r, s) := readRune s in
        if r =? tEOF then Some s
        else if negb (x_is_digit r) then Some (unreadRune s)
        else parameterLoop fuel' s r
    end.

  (** [scanParameter], parser/scanner/scanner.go:343-370. *)
  Definition scanParameter (fuel : nat) (s : scanner) (c : sctx) (r : Z) : scanned :=
    match parameterLoop fuel s r with
    | None => None
    | Some s =>
        match parse_int (b_string (s_buffer s)) with
        | None => Some (s, set_error c SNumber, tError)
        | Some i =>
            let c := set_integer c i in
            if i =? 0 then Some (s, set_error c SZeroParameter, tError)
            else Some (s, c, tParameter)
        end
    end.

  (** The loop of [scanQuotedIdentifier], parser/scanner/scanner.go:373-386;
      [false] is the end of the file. *)
  Fixpoint quotedIdentifierLoop (fuel : nat) (s : scanner) (delim : Z) : option (scanner * bool) :=
    match fuel with
    | O => None
    | S fuel' =>
        let '(r, s) := readRune s in
        if r =? tEOF then Some (s, false)
        else if r =? delim then Some (s, true)
        else quotedIdentifierLoop fuel' (writeRune s r) delim
    end.

  (** [scanQuotedIdentifier], parser/scanner/scanner.go:372-390. *)
  Definition scanQuotedIdentifier (fuel : nat) (s : scanner) (c : sctx) (delim : Z) : scanned :=
    match quotedIdentifierLoop fuel s delim with
    | None => None
    | Some (s, false) => Some (s, set_error c SQuotedIdentifier, tError)
    | Some (s, true) =>
        let '(t, id) := ID (s_ids s) (b_string (s_buffer s)) true in
        Some (set_ids s t, set_ident c id, tIdentifier)
    end.

  (** [scanHexDigit], parser/scanner/scanner.go:392-405; [None] is [0, false]. *)
  Definition scanHexDigit (s : scanner) (c : sctx) : scanner * sctx * option Z :=
    let '(r, s) := readRune s in
    if (48 <=? r) && (r <=? 57) then (s, c, Some (r - 48))
    else if (65 <=? r) && (r <=? 70) then (s, c, Some (r - 65 + 10))
    else if (97 <=? r) && (r <=? 102) then (s, c, Some (r - 97 + 10))
    else (s, if r =? tError then c else set_error c SHexDigit, None).

  (** [scanHex], parser/scanner/scanner.go:407-417. *)
  Definition scanHex (s : scanner) (c : sctx) : scanner * sctx * Z :=
    match scanHexDigit s c with
    | (s, c, None) => (s, c, tError)
    | (s, c, Some d1) =>
        match scanHexDigit s c with
        | (s, c, None) => (s, c, tError)
        | (s, c, Some d2) => (s, c, d1 * 16 + d2)
        end
    end.

  (** The loop of [scanUnicode], parser/scanner/scanner.go:421-428; at most
      eight digits, so [uint] does not overflow. *)
  Fixpoint unicodeLoop (digits : nat) (s : scanner) (c : sctx) (u : Z) : scanner * sctx * option Z :=
    match digits with
    | O => (s, c, Some u)
    | S digits' =>
        match scanHexDigit s c with
        | (s, c, None) => (s, c, None)
        | (s, c, Some d) => unicodeLoop digits' s c (u * 16 + d)
        end
    end.

  (** [scanUnicode], parser/scanner/scanner.go:419-430: the conversion to a
      [rune] keeps the low 32 bits. *)
  Definition scanUnicode (s : scanner) (c : sctx) (digits : nat) : scanner * sctx * Z :=
    match unicodeLoop digits s c 0 with
    | (s, c, None) => (s, c, tError)
    | (s, c, Some u) => (s, c, i32 u)
    end.

  (** [scanOctalDigit], parser/scanner/scanner.go:432-441. *)
  Definition scanOctalDigit (s : scanner) (c : sctx) : scanner * sctx * option Z :=
    let '(r, s) := readRune s in
    if (48 <=? r) && (r <=? 55) then (s, c, Some (r - 48))
    else (s, if r =? tError then c else set_error c SOctalDigit, None).

  (** [scanOctal], parser/scanner/scanner.go:443-455: arithmetic on bytes. *)
  Definition scanOctal (s : scanner) (c : sctx) (r : Z) : scanner * sctx * Z :=
    let octal := (r - 48) mod 256 in
    match scanOctalDigit s c with
    | (s, c, None) => (s, c, tError)
    | (s, c, Some d) =>
        let octal := (octal * 8 + d) mod 256 in
        match scanOctalDigit s c with
        | (s, c, None) => (s, c, tError)
        | (s, c, Some d) => (s, c, (octal * 8 + d) mod 256)
        end
    end.

  (** The loop over the white space behind a quote,
      parser/scanner/scanner.go:488-494. *)
  Fixpoint quoteSpace (fuel : nat) (s : scanner) (r : Z) (nl : bool) : option (scanner * Z * bool) :=
    match fuel with
    | O => None
    | S fuel' =>
        if x_is_space r then
          let nl := if (r =? 10) || (r =? 13) then true else nl in
          let '(r, s) := readRune s in
          quoteSpace fuel' s r nl
        else Some (s, r, nl)
    end.

  (** The [switch] on the rune behind a backslash,
      parser/scanner/scanner.go:510-534. *)
  Definition scanEscape (s : scanner) (c : sctx) : scanner * sctx * Z :=
    let '(r, s) := readRune s in
    if r =? 97 then (s, c, 7)
    else if r =? 98 then (s, c, 8)
    else if r =? 116 then (s, c, 9)
    else if r =? 110 then (s, c, 10)
    else if r =? 118 then (s, c, 11)
    else if r =? 102 then (s, c, 12)
    else if r =? 114 then (s, c, 13)
    else if r =? 120 then scanHex s c
    else if r =? 117 then scanUnicode s c 4
    else if r =? 85 then scanUnicode s c 8
    else if (48 <=? r) && (r <=? 55) then scanOctal s c r
    else (s, c, r).

  (** Lines 509-543 of [scanQuotedConstant], parser/scanner/scanner.go: the
      rune after its escape was read; [None] is returning [token.Error]. *)
  Definition quotedRune (s : scanner) (c : sctx) (esc : bool) (r : Z) : scanner * sctx * option Z :=
    if (r =? 92) && esc then
      let '(s, c, r) := scanEscape s c in
      if r =? tEOF then (s, set_error c SIncompleteEscape, None)
      else if r =? tError then (s, c, None)
      else (s, c, Some r)
    else (s, c, Some r).

  (** [scanQuotedConstant], parser/scanner/scanner.go:475-547. *)
  Fixpoint scanQuotedConstant (fuel : nat) (s : scanner) (c : sctx) (esc : bool) : scanned :=
    match fuel with
    | O => None
    | S fuel' =>
        let '(r, s) := readRune s in
        if r =? tEOF then Some (s, set_error c SMissingQuote, tError)
        else if r =? tError then Some (s, c, tError)
        else
          let put (s : scanner) (r : Z) : scanned :=
            match quotedRune s c esc r with
            | (s, c, None) => Some (s, c, tError)
            | (s, c, Some r) => scanQuotedConstant fuel' (writeRune s r) c esc
            end in
          if r =? 39 then
            let '(r, s) := readRune s in
            if x_is_space r then
              match quoteSpace fuel s r false with
              | None => None
              | Some (s, r, nl) =>
                  if (r =? 39) && nl then scanQuotedConstant fuel' s c esc
                  else if r =? tError then Some (s, c, tError)
                  else Some (unreadRune s, c, tString)
              end
            else if negb (r =? 39) then Some (unreadRune s, c, tString)
            else put s r
          else put s r
    end.

  (** [scanString], parser/scanner/scanner.go:457-464. *)
  Definition scanString (fuel : nat) (s : scanner) (c : sctx) (esc : bool) : scanned :=
    match scanQuotedConstant fuel s c esc with
    | None => None
    | Some (s, c, r) =>
        if r =? tError then Some (s, c, tError)
        else Some (s, set_string c (b_string (s_buffer s)), tString)
    end.

  (** [scanBytes], parser/scanner/scanner.go:466-473. *)
  Definition scanBytes (fuel : nat) (s : scanner) (c : sctx) (esc : bool) : scanned :=
    match scanQuotedConstant fuel s c esc with
    | None => None
    | Some (s, c, r) =>
        if r =? tError then Some (s, c, tError)
        else Some (s, set_bytes c (b_bytes (s_buffer s)), tBytes)
    end.

  (** [scanHexBytes], parser/scanner/scanner.go:549-575. *)
  Fixpoint scanHexBytes (fuel : nat) (s : scanner) (c : sctx) : scanned :=
    match fuel with
    | O => None
    | S fuel' =>
        let '(r, s) := readRune s in
        if r =? tEOF then Some (s, set_error c SMissingQuote, tError)
        else if r =? tError then Some (s, c, tError)
        else if r =? 39 then Some (s, set_bytes c (b_bytes (s_buffer s)), tBytes)
        else
          match scanHexDigit (unreadRune s) c with
          | (s, c, None) => Some (s, c, tError)
          | (s, c, Some d1) =>
              match scanHexDigit s c with
              | (s, c, None) => Some (s, c, tError)
              | (s, c, Some d2) => scanHexBytes fuel' (writeByte s (zb (d1 * 16 + d2))) c
              end
          end
    end.

  (** Skipping white space, parser/scanner/scanner.go:114-125: the first rune
      that is negative or no white space. *)
  Fixpoint skipWhitespace (fuel : nat) (s : scanner) : option (Z * scanner) :=
    match fuel with
    | O => None
    | S fuel' =>
        let '(r, s) := readRune s in
        if (r <? 0) || negb (x_is_space r) then Some (r, s) else skipWhitespace fuel' s
    end.

  (** The loop over a [--] comment, parser/scanner/scanner.go:133-142; [Some r]
      is returning [r]. *)
  Fixpoint lineComment (fuel : nat) (s : scanner) : option (option Z * scanner) :=
    match fuel with
    | O => None
    | S fuel' =>
        let '(r2, s) := readRune s in
        if r2 <? 0 then Some (Some r2, s)
        else if r2 =? 10 then Some (None, s)
        else lineComment fuel' s
    end.

  (** The loop over a [/*] comment, parser/scanner/scanner.go:152-164. *)
  Fixpoint blockComment (fuel : nat) (s : scanner) (p : Z) : option (option Z * scanner) :=
    match fuel with
    | O => None
    | S fuel' =>
        let '(r2, s) := readRune s in
        if r2 <? 0 then Some (Some r2, s)
        else if (p =? tStar) && (r2 =? tSlash) then Some (None, s)
        else blockComment fuel' s r2
    end.

  (** What follows a minus or a slash, parser/scanner/scanner.go:131-172. *)
  Inductive comment : Type :=
  | Again (s : scanner)            (* goto SkipWhitespace *)
  | Return (r : Z) (s : scanner)   (* return r2 *)
  | Proceed (s : scanner).         (* on to line 174 *)

  Definition comments (fuel : nat) (s : scanner) (r : Z) : option comment :=
    let over (o : option (option Z * scanner)) : option comment :=
      match o with
      | None => None
      | Some (Some r2, s) => Some (Return r2 s)
      | Some (None, s) => Some (Again s)
      end in
    if r =? tMinus then
      let '(r2, s) := readRune s in
      if r2 =? tMinus then over (lineComment fuel s)
      else if r2 <? 0 then Some (Return r2 s)
      else Some (Proceed (unreadRune s))
    else if r =? tSlash then
      let '(r2, s) := readRune s in
      if r2 =? tStar then over (blockComment fuel s 0)
      else if r2 <? 0 then Some (Return r2 s)
      else Some (Proceed (unreadRune s))
    else Some (Proceed s).

  (** The rest of [scan], parser/scanner/scanner.go:174-251. *)
  Definition scanToken (fuel : nat) (s : scanner) (c : sctx) (r : Z) : scanned :=
    let c := set_position c (s_line s) (s_column s) in
    if (r =? 101) || (r =? 69) then
      let '(r2, s) := readRune s in
      if r2 =? 39 then scanString fuel s c true
      else scanIdentifier fuel (unreadRune s) c r
    else if r =? 98 then
      let '(r2, s) := readRune s in
      if r2 =? 39 then scanBytes fuel s c true
      else scanIdentifier fuel (unreadRune s) c r
    else if (r =? 120) || (r =? 88) then
      let '(r2, s) := readRune s in
      if r2 =? 39 then scanHexBytes fuel s c
      else scanIdentifier fuel (unreadRune s) c r
    else if x_is_letter r || (r =? 95) then scanIdentifier fuel s c r
    else if x_is_digit r then scanNumber fuel s c r 1
    else if r =? tPlus then
      let '(r, s) := readRune s in
      if x_is_digit r then scanNumber fuel s c r 1
      else Some (unreadRune s, c, tPlus)
    else if r =? tMinus then
      let '(r, s) := readRune s in
      if x_is_digit r then scanNumber fuel s c r (-1)
      else Some (unreadRune s, c, tMinus)
    else if (r =? 34) || (r =? 96) then scanQuotedIdentifier fuel s c r
    else if r =? 91 then scanQuotedIdentifier fuel s c 93
    else if r =? 39 then scanString fuel s c false
    else if IsOpRune r then
      let s := writeRune s r in
      let '(r2, s) := readRune s in
      if (r2 =? tMinus) || (r2 =? tPlus) then Some (unreadRune s, c, r)
      else if IsOpRune r2 then
        let s := writeRune s r2 in
        match Operators r r2 with
        | Some r3 => Some (s, c, r3)
        | None => Some (s, set_error c SUnexpectedOperator, tError)
        end
      else Some (unreadRune s, c, r)
    else if (r =? tDot) || (r =? tComma) || (r =? tLParen) || (r =? tRParen) || (r =? tAtSign) then
      Some (s, c, r)
    else if r =? 36 then
      let '(r, s) := readRune s in
      if negb (x_is_digit r) then Some (s, set_error c SExpectedParameter, tError)
      else scanParameter fuel s c r
    else Some (s, set_error c SUnexpectedCharacter, tError).

  (** [scan], parser/scanner/scanner.go:112-252. *)
  Fixpoint scan (fuel : nat) (s : scanner) (c : sctx) : scanned :=
    match fuel with
    | O => None
    | S fuel' =>
        match skipWhitespace fuel s with
        | None => None
        | Some (r, s) =>
            if r <? 0 then Some (s, c, r)
            else if r =? 59 then Some (s, c, tEndOfStatement)
            else
              match comments fuel s r with
              | None => None
              | Some (Again s) => scan fuel' s c
              | Some (Return r2 s) => Some (s, c, r2)
              | Some (Proceed s) => scanToken fuel s c r
              end
        end
    end.

  (** [Scan], parser/scanner/scanner.go:69-73, with fuel. *)
  Definition ScanFuel (fuel : nat) (s : scanner) (c : sctx) : option (scanner * sctx) :=
    match scan fuel (set_buffer s (b_reset (s_buffer s))) c with
    | None => None
    | Some (s, c, t) => Some (s, set_token c t)
    end.

  (** Fuel for one token: what is still to be read and a bit more. *)
  Definition scan_fuel (s : scanner) : nat := (4 + length (s_in s))%nat.

  (** [Scan], parser/scanner/scanner.go:69-73. *)
  Definition Scan (s : scanner) (c : sctx) : option (scanner * sctx) := ScanFuel (scan_fuel s) s c.

End Scanner.
