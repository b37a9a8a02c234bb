(** The parser and the console with a reader that may fail, parser/parser.go,
    parser/scanner/scanner.go and main.go.

    As in ModelReader.v, [s_in] holds what the calls of the reader's [ReadRune]
    return, and [tError] stands for an error other than the end of the file.  What
    does not read - [unscan], the functions [parse...], [deref_stmt] - is as in
    ModelParser.v. *)

From Verif Require Export ModelReader ModelMain.

(** The loop of [RuneReader], parser/scanner/scanner.go:81-92: it ends at any error,
    which it does not look at. *)
Fixpoint dropLineE (input : list Z) : list Z * bool :=
  match input with
  | [] => ([], false)
  | r :: rest => if r =? tError then (rest, false) else if r =? 10 then (rest, true) else dropLineE rest
  end.

(** [RuneReader], parser/scanner/scanner.go:79-95. *)
Definition RuneReaderE (s : scanner) : scanner :=
  let '(rest, nl) := dropLineE (s_in s) in
  {| s_in := rest; s_unread := s_unread s; s_read := s_read s;
     s_line := if nl then s_line s + 1 else s_line s;
     s_column := if nl then 0 else s_column s;
     s_buffer := s_buffer s; s_ids := s_ids s |}.

(** What [runeReader.ReadRune] returns, parser/scanner/scanner.go:97-110. *)
Inductive data_read : Set := DRune (r : Z) | DEOF | DError.

(** [runeReader.ReadRune], parser/scanner/scanner.go:97-110: the error is passed on. *)
Definition runeReaderReadRuneE (s : scanner) : data_read * scanner :=
  match s_in s with
  | [] => (DEOF, s)
  | r :: rest =>
      if r =? tError then
        (DError,
         {| s_in := rest; s_unread := s_unread s; s_read := s_read s; s_line := s_line s;
            s_column := s_column s; s_buffer := s_buffer s; s_ids := s_ids s |})
      else
        (DRune r,
         {| s_in := rest; s_unread := s_unread s; s_read := s_read s;
            s_line := if r =? 10 then s_line s + 1 else s_line s;
            s_column := if r =? 10 then 0 else s_column s + 1;
            s_buffer := s_buffer s; s_ids := s_ids s |})
  end.

Section Reader.
  Context {X : FloatLib} {L : CaseLib} {U : RuneLib} {B : BufLib} {P : PrintLib}.

  (** [scanRune], parser/parser.go:76-89; see [scanRune] of ModelParser.v. *)
  Definition scanRuneE (p : parser) : option (parser * bool) :=
    let cur := ((p_current p + 1) mod lookBackAmount)%nat in
    match p_unscanned p with
    | S u =>
        Some ({| p_scanner := p_scanner p; p_lookBack := p_lookBack p; p_current := cur;
                 p_unscanned := u; p_failed := p_failed p |}, false)
    | O =>
        match ScanE (p_scanner p) (nth cur (p_lookBack p) c_zero) with
        | None => None
        | Some (s, c) =>
            Some ({| p_scanner := s; p_lookBack := set_nth cur c (p_lookBack p); p_current := cur;
                     p_unscanned := 0; p_failed := p_failed p |},
                  match tok_of c with KError true => true | _ => false end)
        end
    end.

  (** Carrying out the actions; [scan], parser/parser.go:91-97, panics with the
      error of [scanRune]. *)
  Fixpoint runE {A} (g : act A) (p : parser) : outcome_ parser A :=
    match g with
    | ARet a => Done a p
    | AError => Failed p
    | ACrash => Crashed p
    | AFuel => Stuck
    | AScan k =>
        match scanRuneE p with
        | None => Stuck
        | Some (p, true) => Failed p
        | Some (p, false) => runE (k (p_tok p)) p
        end
    | AUnscan k =>
        match unscan p with
        | None => Crashed p
        | Some p => runE k p
        end
    | ATok k => runE (k (p_tok p)) p
    | AIntern s k =>
        let '(t, id) := ID (s_ids (p_scanner p)) s false in
        runE (k id) (set_scanner p (set_ids (p_scanner p) t))
    | AName id k => runE (k (idString (s_ids (p_scanner p)) id)) p
    | ABytes l k => runE (k (b_look (s_buffer (p_scanner p)) l)) p
    | AReader k =>
        let s := RuneReaderE (p_scanner p) in
        runE (k (s_line s)) (set_scanner p s)
    end.

  (** The loop of [Parse], parser/parser.go:43-52, with fuel; [None] is that an
      end of statement was found. *)
  Fixpoint skipStmtE (n : nat) (p : parser) : option parsed * parser :=
    match n with
    | O => (Some PStuck, p)
    | S n' =>
        match scanRuneE p with
        | None => (Some PStuck, p)
        | Some (p, true) => (Some (PErr p), p)
        | Some (p, false) =>
            match p_tok p with
            | KEOF => (Some (PEOF p), p)
            | KEnd => (None, p)
            | _ => skipStmtE n' p
            end
        end
    end.

  (** [Parse], parser/parser.go:33-70, up to the bytes of literals. *)
  Definition ParseTreeE (p : parser) : parsed :=
    match scanRuneE p with
    | None => PStuck
    | Some (p, true) => PErr p
    | Some (p, false) =>
        match p_tok p with
        | KEOF => PEOF p
        | _ =>
            match unscan p with
            | None => PCrash
            | Some p =>
                let '(o, p) := if p_failed p then skipStmtE (parse_fuel p) p else (None, p) in
                match o with
                | Some r => r
                | None =>
                    let p := set_failed p false in
                    match runE (parseWhole (parse_fuel p)) p with
                    | Done s p => PStmt s p
                    | Failed p => PErr (set_failed p (match p_tok p with KEnd => false | _ => true end))
                    | Crashed _ => PCrash
                    | Stuck => PStuck
                    end
                end
            end
        end
    end.

  (** [Parse], parser/parser.go:33-70. *)
  Definition ParseE (p : parser) : parsed :=
    match ParseTreeE p with
    | PStmt s p => PStmt (option_map (deref_stmt (s_buffer (p_scanner p))) s) p
    | r => r
    end.

  (** The loop of [main], main.go:31-42, for at most [n] rounds; see [mainLoop] of
      ModelMain.v.  Only [io.EOF] ends it (34). *)
  Fixpoint mainLoopE (n : nat) (p : parser) : list shown * finish :=
    match n with
    | O => ([], Running)
    | S n' =>
        match ParseE p with
        | PEOF _ => ([ShowPrompt], Exited)
        | PErr p' => let '(l, f) := mainLoopE n' p' in (ShowPrompt :: ShowError :: l, f)
        | PStmt s p' =>
            let '(l, f) := mainLoopE n' p' in
            (ShowPrompt :: ShowLine (println (s_ids (p_scanner p')) s) :: l, f)
        | PCrash => ([ShowPrompt], Panicked)
        | PStuck => ([ShowPrompt], Running)
        end
    end.

  (** [main], main.go:29-43. *)
  Definition main_E (n : nat) (input : list Z) : list shown * finish := mainLoopE n (newParser idt_init input).
End Reader.
