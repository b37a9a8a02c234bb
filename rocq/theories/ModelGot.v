(** The texts of the errors of the parser that say what was expected and what was
    found, parser/parser.go:112-244, parser/token/token.go:74-82. *)

From Verif Require Export ModelErrorText.

(** [fmt] for a string with %q and for a float with %f, and the text of the error
    in a context, of which the model does not have all parts (parser/parser.go:119,
    125, 131). *)
Class GotLib : Type := {
  x_quote : bytes -> bytes;
  x_fixed : Z -> bytes;
  x_lexical : sctx -> bytes
}.

(** [operators], parser/token/token.go:51-60. *)
Definition operatorString (r : Z) : option bytes :=
  option_map (fun o => [zb (fst (fst o)); zb (snd (fst o))]) (find (fun o => snd o =? r) operators).

(** [Format], parser/token/token.go:74-82. *)
Definition tokenFormat (r : Z) : bytes :=
  if 0 <? r then str "rune " ++ utf8_encode r
  else match operatorString r with
  | Some s => s
  | None => str "token " ++ format_int r
  end.

Section Got.
  Context {W : GotLib}.

  (** [got], parser/parser.go:112-135; [None] is the panic for an error that is nil.
      For bytes the text is made of [String] of the context (127). *)
  Definition got (T : idtable) (c : sctx) : option bytes :=
    let t := c_token c in
    if t =? tEOF then Some (str "end of file")
    else if t =? tEndOfStatement then Some (str "end of statement (;)")
    else if t =? tError then match c_error c with Some _ => Some (str "error " ++ x_lexical c) | None => None end
    else if t =? tIdentifier then Some (str "identifier " ++ idString T (c_ident c))
    else if t =? tReserved then Some (str "reserved identifier " ++ idString T (c_ident c))
    else if t =? tString then Some (str "string " ++ x_quote (c_string c))
    else if t =? tBytes then Some (str "bytes " ++ c_string c)
    else if t =? tInteger then Some (str "integer " ++ format_int (c_integer c))
    else if t =? tFloat then Some (str "float " ++ x_fixed (c_float c))
    else Some (tokenFormat t).

  (** The loops over what is expected, parser/parser.go:150-158, 209-215: [i] is the
      index of the first of [l], [n] how many there are. *)
  Fixpoint expectedLoop (i n : nat) (l : list bytes) (msg : bytes) : bytes :=
    match l with
    | [] => msg
    | s :: l' =>
        let msg := if (i =? n - 1)%nat then msg ++ str ", or "
                   else if (0 <? i)%nat then msg ++ str ", " else msg in
        expectedLoop (S i) n l' (msg ++ s)
    end.

  (** parser/parser.go:146-159, 204-216. *)
  Definition expectedText (l : list bytes) : bytes :=
    match l with
    | [s] => s
    | _ => expectedLoop 0 (length l) l []
    end.

  (** The messages of [expectReserved] (parser/parser.go:161), [expectIdentifier]
      (182), [expectTokens] (218), [expectInteger] (232-233) and
      [expectEndOfStatement] (242). *)
  Inductive expecting : Type :=
  | XReserved (ids : list Z)
  | XIdentifier (msg : bytes)
  | XTokens (rs : list Z)
  | XInteger (lo hi : Z)
  | XEnd.

  (** The function called, parser/parser.go:137-163, 179-185, 196-220, 230-244. *)
  Definition expectation (e : expecting) : act unit :=
    match e with
    | XReserved ids => expectReserved ids ;+ ARet tt
    | XIdentifier _ => expectIdentifier ;+ ARet tt
    | XTokens rs => expectTokens rs ;+ ARet tt
    | XInteger lo hi => expectInteger lo hi ;+ ARet tt
    | XEnd => expectEndOfStatement
    end.

  (** What is in front of the text of [got], parser/parser.go:161, 182, 218, 232-233,
      242. *)
  Definition expectedMessage (T : idtable) (e : expecting) : bytes :=
    match e with
    | XReserved ids => str "expected keyword " ++ expectedText (map (idString T) ids) ++ str "; got "
    | XIdentifier msg => msg ++ str ", got "
    | XTokens rs => str "expected " ++ expectedText (map tokenFormat rs) ++ str ", got "
    | XInteger lo hi => str "expected a number between " ++ format_int lo ++ str " and " ++ format_int hi ++ str " inclusive, got "
    | XEnd => str "expected the end of the statement, got "
    end.
End Got.

Section Run.
  Context {X : FloatLib} {L : CaseLib} {U : RuneLib} {B : BufLib} {P : PrintLib} {W : GotLib}.

  (** The text of the error with which one of these functions ends: that of [error]
      (parser/parser.go:72-74) with the error of [scanRune] (91-97) or with the
      message; [None] if there is no error. *)
  Definition expectError (fn : bytes) (e : expecting) (p : parser) : option bytes :=
    match run (expectation e) p with
    | Failed q =>
        match p_tok q with
        | KError _ => Some (errorPrefix fn (p_sctx q) ++ x_lexical (p_sctx q))
        | _ => match got (s_ids (p_scanner q)) (p_sctx q) with
               | Some g => Some (errorPrefix fn (p_sctx q) ++ expectedMessage (s_ids (p_scanner q)) e ++ g)
               | None => None
               end
        end
    | _ => None
    end.
End Run.
