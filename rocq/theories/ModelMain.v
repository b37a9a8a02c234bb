(** main.go: the console. *)

From Verif Require Export ModelPrint.

(** What is written to the standard output: the prompt (main.go:32), an error of
    [Parse] (main.go:37; its text is not modelled) and a statement (main.go:41). *)
Inductive shown : Set := ShowPrompt | ShowError | ShowLine (line : bytes).

(** How the program ends: [break] (main.go:34-35), the panic of [Parse], or not
    within the number of rounds given. *)
Inductive finish : Set := Exited | Panicked | Running.

Section Main.
  Context {X : FloatLib} {L : CaseLib} {U : RuneLib} {B : BufLib} {P : PrintLib}.

  (** What [fmt.Println(stmt)] writes, main.go:41: [<nil>] for a nil interface; the
      text of [String]; or, if that panics, the description of the panic. *)
  Definition println (T : idtable) (s : option stmt) : bytes :=
    match s with
    | None => str "<nil>"
    | Some s =>
        match stmtString T s with
        | PText t => t
        | PPanic w => str "%!v(PANIC=String method: " ++ w ++ str ")"
        end
    end.

  (** The loop of [main], main.go:31-42, for at most [n] rounds.  The standard input
      is a finite list of runes, which it need not be at a terminal.  The names are
      those known when the statement is printed. *)
  Fixpoint mainLoop (n : nat) (p : parser) : list shown * finish :=
    match n with
    | O => ([], Running)
    | S n' =>
        match Parse p with
        | PEOF _ => ([ShowPrompt], Exited)
        | PErr p' => let '(l, f) := mainLoop n' p' in (ShowPrompt :: ShowError :: l, f)
        | PStmt s p' =>
            let '(l, f) := mainLoop n' p' in
            (ShowPrompt :: ShowLine (println (s_ids (p_scanner p')) s) :: l, f)
        | PCrash => ([ShowPrompt], Panicked)
        | PStuck => ([ShowPrompt], Running)
        end
    end.

  (** [main], main.go:29-43; the identifiers are those of the package's
      initialisation (types/identifier.go:144-276, 352-366). *)
  Definition main_ (n : nat) (input : list Z) : list shown * finish := mainLoop n (newParser idt_init input).
End Main.
