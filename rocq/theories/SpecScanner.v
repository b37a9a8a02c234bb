(** The words of the language, and what the scanner is expected to do. *)

From Verif Require Export ModelScanner SpecValue.

(** What Go's unicode tables say about ASCII, and that the three classes are
    disjoint and empty below zero. *)
Definition RuneLib_scan (U : RuneLib) : Prop :=
  (forall r, 0 <= r < 128 ->
     (x_is_letter r = true <-> 65 <= r <= 90 \/ 97 <= r <= 122) /\
     (x_is_digit r = true <-> 48 <= r <= 57) /\
     (x_is_space r = true <-> r = 32 \/ 9 <= r <= 13)) /\
  (forall r, x_is_letter r = true \/ x_is_digit r = true \/ x_is_space r = true -> 0 <= r) /\
  (forall r, x_is_letter r = true -> x_is_digit r = false /\ x_is_space r = false) /\
  (forall r, x_is_digit r = true -> x_is_space r = false).

(** The text a scanner has still to read. *)
Definition rest (s : scanner) : list Z :=
  (if s_unread s then if s_read s <? 0 then [] else [s_read s] else []) ++ s_in s.

(** The UTF-8 encoding of a text. *)
Definition encode (w : list Z) : bytes := flat_map utf8_encode w.

(** What a token stands for. *)
Inductive tokval : Set :=
| TEnd                               (* ; *)
| TName (s : bytes) (quoted : bool)
| TString (s : bytes)
| TBytes (b : bytes)
| TInteger (i : Z)
| TFloat (p : Z)
| TParameter (i : Z)
| TRune (r : Z).                     (* punctuation and operators *)

Section Grammar.
  Context {X : FloatLib} {U : RuneLib}.

  Definition space (r : Z) : Prop := x_is_space r = true.
  Definition name_start (r : Z) : Prop := x_is_letter r = true \/ r = 95.
  Definition name_rune (r : Z) : Prop := x_is_letter r = true \/ x_is_digit r = true \/ r = 95 \/ r = 36.

  (** The text does not start with a rune that is [p]. *)
  Definition no_start (p : Z -> Prop) (l : list Z) : Prop :=
    match l with [] => True | r :: _ => ~ p r end.

  (** The text has [u] inside. *)
  Definition has (u l : list Z) : Prop := exists a b, l = a ++ u ++ b.

  (** White space and comments. *)
  Inductive gap : list Z -> Prop :=
  | gap_nil : gap []
  | gap_space r w : space r -> gap w -> gap (r :: w)
  | gap_line u w : ~ In 10 u -> gap w -> gap ([45; 45] ++ u ++ [10] ++ w)
  | gap_block u w : ~ has [42; 47] (u ++ [42]) -> gap w -> gap ([47; 42] ++ u ++ [42; 47] ++ w).

  (** What may stand at the end of the input behind white space and comments
      without being a token: nothing, a comment that is not closed - and, as
      the scanner is written, a lone minus or slash. *)
  Inductive no_token : list Z -> Prop :=
  | nt_nil : no_token []
  | nt_line u : ~ In 10 u -> no_token ([45; 45] ++ u)
  | nt_block u : ~ has [42; 47] u -> no_token ([47; 42] ++ u)
  | nt_minus : no_token [45]
  | nt_slash : no_token [47].

  (** Hexadecimal and octal digits. *)
  Inductive hex_digit : Z -> Z -> Prop :=
  | hd_digit d : 0 <= d <= 9 -> hex_digit (48 + d) d
  | hd_upper d : 10 <= d <= 15 -> hex_digit (55 + d) d
  | hd_lower d : 10 <= d <= 15 -> hex_digit (87 + d) d.

  Inductive hex_number : list Z -> Z -> Prop :=
  | hn_nil : hex_number [] 0
  | hn_snoc w u r d : hex_number w u -> hex_digit r d -> hex_number (w ++ [r]) (u * 16 + d).

  (** What may follow a backslash, and the rune it stands for. *)
  Inductive escape : list Z -> Z -> Prop :=
  | esc_bell : escape [97] 7
  | esc_backspace : escape [98] 8
  | esc_tab : escape [116] 9
  | esc_newline : escape [110] 10
  | esc_vertical : escape [118] 11
  | esc_feed : escape [102] 12
  | esc_return : escape [114] 13
  | esc_hex w u : hex_number w u -> length w = 2%nat -> escape (120 :: w) u
  | esc_short w u : hex_number w u -> length w = 4%nat -> escape (117 :: w) u
  | esc_long w u : hex_number w u -> length w = 8%nat -> u < 2 ^ 31 -> escape (85 :: w) u
  (* beyond that the number is taken for a negative one and replaced, but for
     two of them *)
  | esc_beyond w u : hex_number w u -> length w = 8%nat -> 2 ^ 31 <= u ->
      u <> 2 ^ 32 - 1 -> u <> 2 ^ 32 - 3 -> escape (85 :: w) RuneError
  | esc_octal a b c : 0 <= a <= 7 -> 0 <= b <= 7 -> 0 <= c <= 7 ->
      escape [48 + a; 48 + b; 48 + c] ((a * 64 + b * 8 + c) mod 256)
  | esc_other r : ~ In r [97; 98; 116; 110; 118; 102; 114; 120; 117; 85] -> ~ 48 <= r <= 55 ->
      escape [r] r.

  (** What stands between the quotes of a constant. *)
  Inductive quoted_body (esc : bool) : list Z -> list Z -> Prop :=
  | qb_nil : quoted_body esc [] []
  | qb_rune r w v : r <> 39 -> (esc = true -> r <> 92) -> quoted_body esc w v ->
      quoted_body esc (r :: w) (r :: v)
  | qb_quote w v : quoted_body esc w v -> quoted_body esc (39 :: 39 :: w) (39 :: v)
  | qb_join sp w v : Forall space sp -> In 10 sp \/ In 13 sp -> quoted_body esc w v ->
      quoted_body esc (39 :: sp ++ 39 :: w) v
  | qb_escape e r w v : esc = true -> escape e r -> quoted_body esc w v ->
      quoted_body esc (92 :: e ++ w) (r :: v).

  (** A quote followed by [f] ends the constant, with [l] left: white space
      behind the quote is read as well. *)
  Definition quote_ends (f l : list Z) : Prop :=
    exists sp, f = sp ++ l /\ Forall space sp /\ no_start space l /\
      (match l with r :: _ => r = 39 -> sp <> [] /\ ~ In 10 sp /\ ~ In 13 sp | [] => True end).

  (** The pairs of hexadecimal digits of a byte string. *)
  Inductive hex_body : list Z -> bytes -> Prop :=
  | hb_nil : hex_body [] []
  | hb_byte r1 d1 r2 d2 w b : hex_digit r1 d1 -> hex_digit r2 d2 -> hex_body w b ->
      hex_body (r1 :: r2 :: w) (zb (d1 * 16 + d2) :: b).

  (** A sign in front of a number. *)
  Inductive sign_text : list Z -> Z -> Prop :=
  | st_none : sign_text [] 1
  | st_plus : sign_text [43] 1
  | st_minus : sign_text [45] (-1).

  (** An operator of one rune, given what follows it. *)
  Definition op_rune (r : Z) : Prop := In r [45; 43; 42; 47; 37; 61; 60; 62; 38; 124; 33].
  Definition op_alone (r : Z) (f : list Z) : Prop :=
    op_rune r /\
    (r = 43 -> no_start (fun x => x_is_digit x = true) f) /\
    (r = 45 -> f <> [] /\ no_start (fun x => x_is_digit x = true \/ x = 45) f) /\
    (r = 47 -> f <> []) /\
    (r <> 43 -> r <> 45 -> no_start (fun x => op_rune x /\ x <> 43 /\ x <> 45) f).

  (** [lexeme w t f l]: the text [w], followed by [f], is the token [t], and
      [l] is left to be read. *)
  Inductive lexeme : list Z -> tokval -> list Z -> list Z -> Prop :=
  | lx_end f : lexeme [59] TEnd f f
  | lx_name r w f : name_start r -> Forall name_rune w -> no_start name_rune f ->
      (In r [101; 69; 98; 120; 88] -> w = [] -> no_start (eq 39) f) ->
      lexeme (r :: w) (TName (encode (r :: w)) false) f f
  | lx_quoted o d w f : In (o, d) [(34, 34); (96, 96); (91, 93)] -> ~ In d w ->
      lexeme (o :: w ++ [d]) (TName (encode w) true) f f
  | lx_integer sg k ds f : sign_text sg k -> ds <> [] -> Forall digit ds -> dec_value ds < 2 ^ 63 ->
      no_start (fun x => x_is_digit x = true \/ x = 46) f ->
      lexeme (sg ++ map bz ds) (TInteger (k * dec_value ds)) f f
  | lx_float sg k w v p f : sign_text sg k -> w <> [] ->
      Forall (fun x => x_is_digit x = true) w -> Forall (fun x => x_is_digit x = true) v ->
      x_parse_float (encode (w ++ [46] ++ v)) = Some p ->
      no_start (fun x => x_is_digit x = true) f ->
      lexeme (sg ++ w ++ [46] ++ v) (TFloat (if k =? 1 then p else f_neg p)) f f
  | lx_parameter ds f : ds <> [] -> Forall digit ds -> 0 < dec_value ds < 2 ^ 63 ->
      no_start (fun x => x_is_digit x = true) f ->
      lexeme (36 :: map bz ds) (TParameter (dec_value ds)) f f
  | lx_string w v f l : quoted_body false w v -> quote_ends f l ->
      lexeme (39 :: w ++ [39]) (TString (encode v)) f l
  | lx_estring e w v f l : In e [101; 69] -> quoted_body true w v -> quote_ends f l ->
      lexeme (e :: 39 :: w ++ [39]) (TString (encode v)) f l
  | lx_bytes w v f l : quoted_body true w v -> quote_ends f l ->
      lexeme (98 :: 39 :: w ++ [39]) (TBytes (encode v)) f l
  | lx_hex x w b f : In x [120; 88] -> hex_body w b ->
      lexeme (x :: 39 :: w ++ [39]) (TBytes b) f f
  | lx_punct r f : In r [46; 44; 40; 41; 64] -> lexeme [r] (TRune r) f f
  | lx_op r f : op_alone r f -> lexeme [r] (TRune r) f f
  | lx_op2 a b t f : In (a, b, t)
      [(124, 124, -11); (60, 60, -12); (60, 61, -13); (60, 62, -14);
       (62, 62, -15); (62, 61, -16); (61, 61, -17); (33, 61, -18)] ->
      lexeme [a; b] (TRune t) f f.
End Grammar.

(** The text has the escape FFFFFFFD inside, which is read as the error token but
    sets no error. *)
Definition bad_escape (l : list Z) : Prop :=
  exists a w b, l = a ++ [92; 85] ++ w ++ b /\ length w = 8%nat /\ hex_number w (2 ^ 32 - 3).

(** The context and the scanner hold the token; [t] is the table of identifiers
    before. *)
Definition holds {L : CaseLib} (t : idtable) (v : tokval) (s : scanner) (c : sctx) : Prop :=
  match v with
  | TName n quoted =>
      c_ident c = snd (ID t n quoted) /\ s_ids s = fst (ID t n quoted) /\
      c_token c = (if negb quoted && (c_ident c <? 0) then -5 else -4)
  | TEnd => c_token c = -2 /\ s_ids s = t
  | TString b => c_token c = -6 /\ c_string c = b /\ s_ids s = t
  | TBytes b => (* the bytes are in the scanner's own buffer *)
      c_token c = -7 /\ c_bytes c = b_bytes (s_buffer s) /\ b_look (s_buffer s) (c_bytes c) = b /\ s_ids s = t
  | TInteger i => c_token c = -8 /\ c_integer c = i /\ s_ids s = t
  | TFloat p => c_token c = -9 /\ c_float c = p /\ s_ids s = t
  | TParameter i => c_token c = -10 /\ c_integer c = i /\ s_ids s = t
  | TRune r => c_token c = r /\ s_ids s = t
  end.

(** The scanners met while reading a text of code points: any number of tokens
    were scanned, into any contexts; between tokens other parts of the program
    may have registered identifiers, or may have read lines of data (COPY). *)
Inductive scanning {X : FloatLib} {L : CaseLib} {U : RuneLib} {B : BufLib} : list Z -> scanner -> Prop :=
| sc_start ids input : Forall (fun r => 0 <= r <= 1114111) input ->
    scanning input (scannerInit ids input)
| sc_scan input s c s' c' : scanning input s -> Scan s c = Some (s', c') -> scanning input s'
| sc_ids input s t : scanning input s -> scanning input (set_ids s t)
| sc_reader input s : scanning input s -> scanning input (RuneReader s)
| sc_data input s : scanning input s -> scanning input (snd (runeReaderReadRune s)).

(** Scanning up to the end of the file; the contexts of the tokens. *)
Inductive to_end {X : FloatLib} {L : CaseLib} {U : RuneLib} {B : BufLib} : scanner -> list sctx -> scanner -> Prop :=
| te_eof s c s' c' : Scan s c = Some (s', c') -> c_token c' = -1 -> to_end s [c'] s'
| te_token s c s1 c1 cs s' : Scan s c = Some (s1, c1) -> c_token c1 <> -1 -> to_end s1 cs s' ->
    to_end s (c1 :: cs) s'.

(** A text with its quotes doubled. *)
Fixpoint doubled (s : list Z) : list Z :=
  match s with
  | [] => []
  | r :: s' => if r =? 39 then 39 :: 39 :: doubled s' else r :: doubled s'
  end.

(** Byte strings in hexadecimal. *)
Definition hex_rune (d : Z) : Z := if d <? 10 then 48 + d else 55 + d.
Definition hex_text (b : bytes) : list Z :=
  flat_map (fun x => [hex_rune (bz x / 16); hex_rune (bz x mod 16)]) b.
