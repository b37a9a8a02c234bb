(** Property C70: parsing what a reader delivers that may fail, parser/parser.go,
    and the console, main.go. *)

From Verif Require Import ModelParserReader SpecScanner SpecReader SpecFails LemmasDemo LemmasDemoTyped LemmasDemoEngine LemmasDemoScan LemmasDemoPrint LemmasFailsSession LemmasDemoReader LemmasDemoFails.

(** C70.  However often the reader fails, [Parse] returns; and it returns the end
    of the file only where no read failed any more and everything was read. *)
Theorem C70_total : forall (X : FloatLib) (L : CaseLib) (U : RuneLib) (B : BufLib) (P : PrintLib), RuneLib_scan U -> forall p,
  feeding p -> ParseE p <> PStuck /\ forall q, ParseE p = PEOF q -> text (p_in p) /\ p_in q = [].
Proof. exact @feed_total. Qed.
Print Assumptions C70_total.

(** Where no read fails, this is the parser of the other properties. *)
Theorem C70_same : forall (X : FloatLib) (L : CaseLib) (U : RuneLib) (B : BufLib) (P : PrintLib), RuneLib_scan U -> forall p,
  feeding p -> text (p_in p) -> ParseE p = Parse p.
Proof. exact @feed_same. Qed.
Print Assumptions C70_same.

(** Otherwise: either the result is the one for every text in the place of the
    failure, and the failure is left for the next call; or it is an error, a panic,
    or a COPY, and at most one more failure was met. *)
Theorem C70_failed : forall (X : FloatLib) (L : CaseLib) (U : RuneLib) (B : BufLib) (P : PrintLib), RuneLib_scan U -> forall p u m,
  feeding p -> p_in p = u ++ tError :: m -> text u -> unreached p u m (ParseE p) \/ reached m (ParseE p).
Proof. exact @feed_failed. Qed.
Print Assumptions C70_failed.

Example C70_case :
  feeding (demo_feed "values (1); values (2)" "; delete from t;") /\
  p_in (demo_feed "values (1); values (2)" "; delete from t;") = runes "values (1); values (2)" ++ tError :: runes "; delete from t;" /\
  text (runes "values (1); values (2)") /\
  (exists s q, ParseE (demo_feed "values (1); values (2)" "; delete from t;") = PStmt s q /\ p_in q = runes " values (2)" ++ tError :: runes "; delete from t;") /\
  (exists q, ParseE (demo_feed "values (2)" "; delete from t;") = PErr q /\ p_in q = runes "; delete from t;") /\
  (exists s q, ParseE (demo_feed "copy t from stdin;" "values (4);") = PStmt s q /\ p_in q = runes "values (4);").
Proof.
  split; [apply demo_feeding|]. split; [reflexivity|]. split; [apply runes_pos|].
  split; [eexists; eexists; split; [vm_compute; reflexivity|vm_compute; reflexivity]|].
  split; [eexists; split; [vm_compute; reflexivity|vm_compute; reflexivity]|].
  eexists; eexists; split; [vm_compute; reflexivity|vm_compute; reflexivity].
Qed.

(** The rest of the line of a COPY ends at a newline, at a failure or with the text;
    the position is that of the next line after a newline only. *)
Theorem C70_line : forall s u m, text u -> ~ In 10 u ->
  (s_in s = u -> RuneReaderE s = with_in s []) /\
  (s_in s = u ++ tError :: m -> RuneReaderE s = with_in s m) /\
  (s_in s = u ++ 10 :: m -> RuneReaderE s = {| s_in := m; s_unread := s_unread s; s_read := s_read s; s_line := s_line s + 1; s_column := 0; s_buffer := s_buffer s; s_ids := s_ids s |}).
Proof. exact reader_line. Qed.
Print Assumptions C70_line.

(** The reads of its data return the runes and failures one by one, and then the
    end of the file; the lines are counted. *)
Theorem C70_data : forall n s, (n <= length (s_in s))%nat -> exists s',
  data_reads n s = (map data_of (firstn n (s_in s)), s') /\ s_in s' = skipn n (s_in s) /\ s_line s' = s_line s + newlines (firstn n (s_in s)) /\ s_unread s' = s_unread s /\ s_read s' = s_read s /\
  s_buffer s' = s_buffer s /\ s_ids s' = s_ids s.
Proof. exact data_all. Qed.
Print Assumptions C70_data.

Theorem C70_data_end : forall s, s_in s = [] -> runeReaderReadRuneE s = (DEOF, s).
Proof. exact data_end. Qed.
Print Assumptions C70_data_end.

Example C70_data_case :
  text (runes " --") /\ ~ In 10 (runes " --") /\
  s_in (RuneReaderE (demo_failing " --" "1")) = runes "1" /\
  fst (data_reads 4 (demo_failing "a
" "1")) = [DRune 97; DRune 10; DError; DRune 49] /\ s_line (snd (data_reads 4 (demo_failing "a
" "1"))) = s_line (demo_failing "" "") + 1 /\
  s_in (demo_scanner "") = [].
Proof. split; [apply runes_pos|]. split; [intros H; vm_compute in H; repeat (destruct H as [H|H]; [discriminate H|]); exact H|]. vm_compute. repeat split. Qed.

(** The console ends for every input, after at most as many rounds as there were
    runes and failures, and one. *)
Theorem C70_ends : forall (X : FloatLib) (L : CaseLib) (U : RuneLib) (B : BufLib) (P : PrintLib), RuneLib_scan U -> forall items,
  Forall item items ->
  exists out f, f <> Running /\ (length out <= 2 * length items + 1)%nat /\ forall n, (length items < n)%nat -> main_E n items = (out, f).
Proof. exact @console_ends. Qed.
Print Assumptions C70_ends.

Theorem C70_console : forall (X : FloatLib) (L : CaseLib) (U : RuneLib) (B : BufLib) (P : PrintLib), RuneLib_scan U -> forall n items,
  text items -> main_E n items = main_ n items.
Proof. exact @console_same. Qed.
Print Assumptions C70_console.

(** It never ends because of failures: for every two of them there was a round. *)
Theorem C70_goes : forall (X : FloatLib) (L : CaseLib) (U : RuneLib) (B : BufLib) (P : PrintLib), RuneLib_scan U -> forall n items,
  Forall item items -> (2 * n <= S (fails items))%nat -> snd (main_E n items) <> Exited.
Proof. exact @console_goes. Qed.
Print Assumptions C70_goes.

(** With a reader that fails again and again the console writes errors for ever. *)
Theorem C70_forever : forall (X : FloatLib) (L : CaseLib) (U : RuneLib) (B : BufLib) (P : PrintLib) n m,
  main_E n (repeat tError n ++ m) = (concat (repeat [ShowPrompt; ShowError] n), Running).
Proof. exact @console_again. Qed.
Print Assumptions C70_forever.

Example C70_console_case :
  Forall item (demo_items "values (1) x y" " z; values (4);") /\
  main_E 40 (demo_items "values (1); values (2)" "; delete from t;") =
    ([ShowPrompt; ShowLine (str "VALUES (1)"); ShowPrompt; ShowError; ShowPrompt; ShowLine (str "DELETE FROM t"); ShowPrompt], Exited) /\
  main_E 40 (demo_items "values (1) x y" " z; values (4);") =
    ([ShowPrompt; ShowError; ShowPrompt; ShowError; ShowPrompt; ShowLine (str "VALUES (4)"); ShowPrompt], Exited) /\
  main_E 2 (demo_items "" " -- " ++ [tError; tError]) = ([ShowPrompt; ShowError; ShowPrompt; ShowError], Running) /\
  (2 * 2 <= S (fails (demo_items "" " -- " ++ [tError; tError])))%nat /\
  text (runes "values (4);") /\
  main_E 40 (runes "values (4);") = ([ShowPrompt; ShowLine (str "VALUES (4)"); ShowPrompt], Exited).
Proof. split; [apply demo_all_items|]. do 3 (split; [vm_compute; reflexivity|]). split; [vm_compute; repeat constructor|]. split; [apply runes_pos|]. vm_compute; reflexivity. Qed.

(** What one would expect and is not so: that the console tells that a read
    failed. *)
Theorem C70_told_refuted : ~ (forall n items, Forall item items -> (length items < n)%nat -> fails items <> 0%nat -> In ShowError (fst (main_E n items))).
Proof. exact told_session_refuted. Qed.
Print Assumptions C70_told_refuted.
