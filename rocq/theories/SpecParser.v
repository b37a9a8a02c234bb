(** What the parser is expected to do with the tokens: reading them from a tape on
    which it may go back as far as it likes. *)

From Verif Require Export ModelParser SpecScanner.

Section Tape.
  Context {X : FloatLib} {L : CaseLib} {U : RuneLib} {B : BufLib} {P : PrintLib}.

  (** The tokens that were read, the last one first; those that were read but put
      back, the next one first; and the scanner for those that follow. *)
  Record tape : Set := { t_past : list sctx; t_ahead : list sctx; t_scanner : scanner }.

  Definition t_tok (t : tape) : tok := tok_of (hd c_zero (t_past t)).

  (** The next token; [true] is that it is a lexical error.  (The scanner is given
      a context to fill in; it is that of the third token before, and only its
      error matters.) *)
  Definition t_next (t : tape) : option (tape * bool) :=
    match t_ahead t with
    | c :: ahead => Some ({| t_past := c :: t_past t; t_ahead := ahead; t_scanner := t_scanner t |}, false)
    | [] =>
        match Scan (t_scanner t) (nth 2 (t_past t) c_zero) with
        | None => None
        | Some (s, c) =>
            Some ({| t_past := c :: t_past t; t_ahead := []; t_scanner := s |},
                  match tok_of c with KError true => true | _ => false end)
        end
    end.

  (** Going back by one token; impossible at the beginning. *)
  Definition t_back (t : tape) : option tape :=
    match t_past t with
    | [] => None
    | c :: past => Some {| t_past := past; t_ahead := c :: t_ahead t; t_scanner := t_scanner t |}
    end.

  Definition t_set (t : tape) (s : scanner) : tape :=
    {| t_past := t_past t; t_ahead := t_ahead t; t_scanner := s |}.

  Fixpoint t_run {A} (g : act A) (t : tape) : outcome_ tape A :=
    match g with
    | ARet a => Done a t
    | AError => Failed t
    | ACrash => Crashed t
    | AFuel => Stuck
    | AScan k =>
        match t_next t with
        | None => Stuck
        | Some (t, true) => Failed t
        | Some (t, false) => t_run (k (t_tok t)) t
        end
    | AUnscan k =>
        match t_back t with
        | None => Crashed t
        | Some t => t_run k t
        end
    | ATok k => t_run (k (t_tok t)) t
    | AIntern s k =>
        let '(ids, id) := ID (s_ids (t_scanner t)) s false in
        t_run (k id) (t_set t (set_ids (t_scanner t) ids))
    | AName id k => t_run (k (idString (s_ids (t_scanner t)) id)) t
    | ABytes l k => t_run (k (b_look (s_buffer (t_scanner t)) l)) t
    | AReader k => t_run (k (s_line (RuneReader (t_scanner t)))) (t_set t (RuneReader (t_scanner t)))
    end.

  (** [Parse] on a tape. *)
  Inductive t_parsed : Type :=
  | TStmt (s : option stmt) (t : tape)
  | TErr (t : tape)                          (* on a lexical error, before parsing *)
  | TFailed (t : tape)
  | TEOF (t : tape)
  | TCrash (t : tape)
  | TStuck.

  Fixpoint t_skip (n : nat) (t : tape) : t_parsed + tape :=
    match n with
    | O => inl TStuck
    | S n' =>
        match t_next t with
        | None => inl TStuck
        | Some (t, true) => inl (TErr t)
        | Some (t, false) =>
            match t_tok t with
            | KEOF => inl (TEOF t)
            | KEnd => inr t
            | _ => t_skip n' t
            end
        end
    end.

  Definition t_fuel (t : tape) : nat := (8 + length (s_in (t_scanner t)) + length (t_ahead t))%nat.
  Definition t_parse (failed : bool) (t : tape) : t_parsed :=
    match t_next t with
    | None => TStuck
    | Some (t, true) => TErr t
    | Some (t', false) =>
        match t_tok t' with
        | KEOF => TEOF t'
        | _ =>
            match t_back t' with
            | None => TCrash t'
            | Some t =>
                match (if failed then t_skip (t_fuel t) t else inr t) with
                | inl r => r
                | inr t =>
                    match t_run (parseWhole (t_fuel t)) t with
                    | Done s t => TStmt s t
                    | Failed t => TFailed t
                    | Crashed t => TCrash t
                    | Stuck => TStuck
                    end
                end
            end
        end
    end.

  (** The parser's ring holds the last three tokens of the tape, those put back
      included. *)
  Definition on_tape (p : parser) (t : tape) : Prop :=
    p_scanner p = t_scanner t /\
    p_unscanned p = length (t_ahead t) /\ (length (t_ahead t) <= 3)%nat /\
    length (p_lookBack p) = 3%nat /\ (p_current p < 3)%nat /\
    forall k, (k < 3)%nat ->
      nth ((p_current p + p_unscanned p + 3 - k) mod 3) (p_lookBack p) c_zero = nth k (rev (t_ahead t) ++ t_past t) c_zero.

  (** A parser between two calls: at most two tokens are put back, none of them a
      lexical error. *)
  Definition in_step (input : list Z) (p : parser) (t : tape) : Prop :=
    on_tape p t /\ scanning input (t_scanner t) /\ (length (t_ahead t) <= 2)%nat /\
    Forall (fun c => tok_of c <> KError true) (t_ahead t).

  (** What is left: the tokens put back, but for ends of file, and the text. *)
  Definition left_over (t : tape) : nat :=
    (length (filter (fun c => match tok_of c with KEOF => false | _ => true end) (t_ahead t)) + length (rest (t_scanner t)))%nat.

  (** The parser and the tape do the same.  [failed] is whether the statement
      before was left unfinished. *)
  Definition same (input : list Z) (failed : bool) (r : parsed) (r' : t_parsed) : Prop :=
    match r, r' with
    | PStmt s p, TStmt s' t => s = option_map (deref_stmt (s_buffer (t_scanner t))) s' /\ in_step input p t /\ p_failed p = false
    | PErr p, TErr t => in_step input p t /\ p_failed p = failed
    | PErr p, TFailed t => in_step input p t /\ p_failed p = match t_tok t with KEnd => false | _ => true end
    | PEOF p, TEOF t => in_step input p t /\ p_failed p = failed
    | PCrash, TCrash _ => True
    | _, _ => False
    end.

  (** The parsers met while reading a text of code points: statements and
      expressions were parsed; in between, identifiers were registered and lines
      of data were read (COPY). *)
  Inductive parsing : list Z -> parser -> Prop :=
  | ps_start ids input : Forall (fun r => 0 <= r <= 1114111) input -> parsing input (newParser ids input)
  | ps_stmt input p s p' : parsing input p -> Parse p = PStmt s p' -> parsing input p'
  | ps_error input p p' : parsing input p -> Parse p = PErr p' -> parsing input p'
  | ps_eof input p p' : parsing input p -> Parse p = PEOF p' -> parsing input p'
  | ps_expr input p e p' : parsing input p -> ParseExpr p = Done e p' -> parsing input p'
  | ps_expr_error input p p' : parsing input p -> ParseExpr p = Failed p' -> parsing input p'
  | ps_ids input p t : parsing input p -> parsing input (set_scanner p (set_ids (p_scanner p) t))
  | ps_data input p : parsing input p -> parsing input (set_scanner p (snd (runeReaderReadRune (p_scanner p)))).

  (** [Parse] and [ParseExpr] with some other number of steps for each of their
      loops and calls. *)
  Definition ParseWith (n : nat) (p : parser) : parsed :=
    let deref r := match r with PStmt s p => PStmt (option_map (deref_stmt (s_buffer (p_scanner p))) s) p | r => r end in
    match scanRune p with
    | None => PStuck
    | Some (p, true) => PErr p
    | Some (p, false) =>
        match p_tok p with
        | KEOF => PEOF p
        | _ =>
            match unscan p with
            | None => PCrash
            | Some p =>
                match (if p_failed p then skipStmt n p else (None, p)) with
                | (Some r, _) => r
                | (None, p) =>
                    match run (parseWhole n) (set_failed p false) with
                    | Done s p => deref (PStmt s p)
                    | Failed p => PErr (set_failed p (match p_tok p with KEnd => false | _ => true end))
                    | Crashed _ => PCrash
                    | Stuck => PStuck
                    end
                end
            end
        end
    end.
  Definition ParseExprWith (n : nat) (p : parser) : outcome_ parser expr :=
    match run (parseExpr n) p with
    | Done e p => Done (deref_expr (s_buffer (p_scanner p)) e) p
    | r => r
    end.

  (** Calling [Parse] until the end of the file, or a panic. *)
  Inductive to_eof : parser -> list parsed -> Prop :=
  | pe_eof p p' : Parse p = PEOF p' -> to_eof p [PEOF p']
  | pe_crash p : Parse p = PCrash -> to_eof p [PCrash]
  | pe_stmt p s p' l : Parse p = PStmt s p' -> to_eof p' l -> to_eof p (PStmt s p' :: l)
  | pe_error p p' l : Parse p = PErr p' -> to_eof p' l -> to_eof p (PErr p' :: l).
End Tape.

(** The statements that make the parser panic: the tokens read, the last one
    first, end in USE NULL or in SET variable = NULL (or TO NULL). *)
Definition set_null (past : list tok) : Prop :=
  (exists q, past = KReserved kNULL :: KReserved kUSE :: q) \/
  (exists eq var q, past = KReserved kNULL :: eq :: var :: KReserved kSET :: q /\
     (eq = KRune tEqual \/ eq = KReserved kTO) /\
     (var = KReserved kDATABASE \/ var = KReserved kSCHEMA \/ exists id, var = KIdent id)).
