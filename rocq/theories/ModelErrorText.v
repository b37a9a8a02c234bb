(** What the text of an error of the parser begins with, parser/parser.go,
    parser/scanner/scanner.go.  The message behind it is not modelled. *)

From Verif Require Export ModelParser.

(** [Position.String], parser/scanner/scanner.go:49-55. *)
Definition positionString (fn : bytes) (line column : Z) : bytes :=
  if 0 <? line then fn ++ str ":" ++ format_int line ++ str ":" ++ format_int column else fn.

(** [error], parser/parser.go:72-74, up to the message.  The file name of the
    context is the scanner's, as [Scan] assigns it (parser/scanner/scanner.go:71). *)
Definition errorPrefix (fn : bytes) (c : sctx) : bytes :=
  str "parser: " ++ positionString fn (c_line c) (c_column c) ++ str ": ".

Section Run.
  Context {X : FloatLib} {L : CaseLib} {U : RuneLib} {B : BufLib} {P : PrintLib}.

  (** What the error returned by [Parse], parser/parser.go:33-70, begins with;
      [None] when it returns none.  The error of [scanRune] is returned as it is
      (35-36, 45-46); the others are made by [error], called by [scan] (94) and
      by the functions that parse. *)
  Definition Parse_prefix (fn : bytes) (p : parser) : option bytes :=
    match scanRune p with
    | None => None
    | Some (_, true) => Some []
    | Some (p, false) =>
        match p_tok p with
        | KEOF => None
        | _ =>
            match unscan p with
            | None => None
            | Some p =>
                let '(o, p) := if p_failed p then skipStmt (parse_fuel p) p else (None, p) in
                match o with
                | Some (PErr _) => Some []
                | Some _ => None
                | None =>
                    let p := set_failed p false in
                    match run (parseWhole (parse_fuel p)) p with
                    | Failed p => Some (errorPrefix fn (p_sctx p))
                    | _ => None
                    end
                end
            end
        end
    end.
End Run.
