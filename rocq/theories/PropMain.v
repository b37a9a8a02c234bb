(** Property C56: the console, main.go. *)

From Verif Require Import SpecMain LemmasMain LemmasDemo LemmasDemoTyped LemmasDemoEngine LemmasDemoScan LemmasDemoParser LemmasDemoGrammar LemmasDemoMain.

(** C56.  The program ends, for every input, after at most as many rounds as the
    input has runes, and one. *)
Theorem C56_ends : forall (X : FloatLib) (L : CaseLib) (U : RuneLib) (B : BufLib) (P : PrintLib), RuneLib_scan U -> forall input,
  Forall (fun r => 0 <= r <= 1114111) input ->
  exists out f, f <> Running /\ (length out <= 2 * length input + 1)%nat /\ forall n, (length input < n)%nat -> main_ n input = (out, f).
Proof. exact @main_ends. Qed.
Print Assumptions C56_ends.

(** It writes what [Parse] returns, until that is the end of the file or a panic. *)
Theorem C56_transcript : forall (X : FloatLib) (L : CaseLib) (U : RuneLib) (B : BufLib) (P : PrintLib) p l,
  to_eof p l -> forall n, (length l <= n)%nat ->
  mainLoop n p = (transcript l, if existsb (fun r => match r with PCrash => true | _ => false end) l then Panicked else Exited).
Proof. exact @main_transcript. Qed.
Print Assumptions C56_transcript.

(** For an input of statements it writes the text of each of them, in their order,
    and nothing else.  The tables have the names of the statements. *)
Theorem C56_echo : forall (X : FloatLib) (L : CaseLib) (U : RuneLib) (B : BufLib) (P : PrintLib), RuneLib_scan U -> forall input vss,
  Forall (fun r => 0 <= r <= 1114111) input -> program input vss ->
  exists Ts, tables idt_init Ts /\ Forall2 (fun T vs => forall n q, In (TName n q) vs -> knows T n q) Ts vss /\
    forall ss, says_each Ts vss ss -> forall n, (length vss < n)%nat -> main_ n input = (echo Ts ss ++ [ShowPrompt], Exited).
Proof. exact @main_echo. Qed.
Print Assumptions C56_echo.

Example C56_case :
  Forall (fun r => 0 <= r <= 1114111) (runes demo_delete) /\
  program (runes demo_delete) [demo_delete_tokens; demo_commit_tokens] /\
  says_each [demo_names; demo_names] [demo_delete_tokens; demo_commit_tokens]
    [SDelete {| tn_database := 0; tn_schema := 47; tn_table := 48 |} (Some (demo_grouped 49 50 51)); SCommit] /\
  main_ 3 (runes demo_delete) =
    ([ShowPrompt; ShowLine (str "DELETE FROM s.t WHERE (((a + (2 * b)) < 9) AND (NOT c))");
      ShowPrompt; ShowLine (str "COMMIT"); ShowPrompt], Exited).
Proof. split; [apply demo_runes|]. split; [exact demo_program|]. split; [exact demo_program_says|]. vm_compute. reflexivity. Qed.

(** It does not always end by itself: it panics with [Parse]. *)
Theorem C56_exits_refuted : ~ (forall (X : FloatLib) (L : CaseLib) (U : RuneLib) (B : BufLib) (P : PrintLib), RuneLib_scan U ->
  forall input, Forall (fun r => 0 <= r <= 1114111) input -> exists n out, main_ n input = (out, Exited)).
Proof. exact main_exits_refuted. Qed.
Print Assumptions C56_exits_refuted.

(** And only then: with USE NULL or SET variable = NULL, unless there is a
    backslash in the input. *)
Theorem C56_panics : forall (X : FloatLib) (L : CaseLib) (U : RuneLib) (B : BufLib) (P : PrintLib), RuneLib_scan U -> forall n input,
  Forall (fun r => 0 <= r <= 1114111) input -> ~ In 92 input -> snd (main_ n input) = Panicked ->
  exists p t t', parsing input p /\ in_step input p t /\ t_parse (p_failed p) t = TCrash t' /\ set_null (map tok_of (t_past t')).
Proof. exact @main_panics. Qed.
Print Assumptions C56_panics.

Example C56_panics_case :
  ~ In 92 (runes "BEGIN; USE NULL; COMMIT") /\
  main_ 9 (runes "BEGIN; USE NULL; COMMIT") = ([ShowPrompt; ShowLine (str "BEGIN"); ShowPrompt], Panicked).
Proof. split; [vm_compute; intuition discriminate|vm_compute; reflexivity]. Qed.

(* a nil statement, an error, a statement whose String method panics, and data
   that is read as a statement *)
Example C56_more :
  main_ 9 (runes "PREPARE; DROP 1; COMMIT; INSERT INTO t VALUES (DEFAULT); COPY t FROM STDIN;
begin; \.") =
    ([ShowPrompt; ShowLine (str "<nil>"); ShowPrompt; ShowError; ShowPrompt; ShowLine (str "COMMIT");
      ShowPrompt; ShowLine (str "%!v(PANIC=String method: runtime error: invalid memory address or nil pointer dereference)");
      ShowPrompt; ShowLine (str "COPY t () FROM STDIN"); ShowPrompt; ShowLine (str "BEGIN"); ShowPrompt; ShowError; ShowPrompt; ShowError; ShowPrompt], Exited).
Proof. vm_compute. reflexivity. Qed.
