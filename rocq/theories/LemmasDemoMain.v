(** A concrete input for the examples about the console. *)

From Verif Require Import SpecMain SpecIdent LemmasBase LemmasIdent LemmasDemo LemmasDemoTyped LemmasDemoEngine LemmasDemoScan LemmasDemoParser LemmasGrammarLink LemmasDemoGrammar.

Definition demo_commit_tokens : list tokval := [TName (str "COMMIT") false].
Lemma demo_program : program (runes demo_delete) [demo_delete_tokens; demo_commit_tokens].
Proof.
  apply (pr_more _ _ (runes "COMMIT"%string)); [discriminate|exact demo_delete_text|].
  apply (pr_more _ _ []); [discriminate| |apply (pr_end [] []); [apply gap_nil|constructor]].
  apply (stx_eof _ _ [] []); [|apply gap_nil|constructor].
  demo_word ""%string "COMMIT"%string ""%string. constructor.
Qed.
Lemma demo_program_says : says_each [demo_names; demo_names] [demo_delete_tokens; demo_commit_tokens]
  [SDelete {| tn_database := 0; tn_schema := 47; tn_table := 48 |} (Some (demo_grouped 49 50 51)); SCommit].
Proof.
  constructor; [exact demo_delete_says|]. constructor; [|constructor].
  exists [KReserved kCOMMIT]. split; [unfold demo_commit_tokens; demo_tokens|constructor].
Qed.

Lemma main_exits_refuted : ~ (forall (X : FloatLib) (L : CaseLib) (U : RuneLib) (B : BufLib) (P : PrintLib), RuneLib_scan U ->
  forall input, Forall (fun r => 0 <= r <= 1114111) input -> exists n out, main_ n input = (out, Exited)).
Proof.
  intros H. destruct (H demo_X demo_L demo_U demo_B demo_P demo_U_scan (runes "USE NULL") (demo_runes _)) as (n & out & E).
  destruct n as [|n]; [discriminate E|]. unfold main_ in E. cbn [mainLoop] in E.
  assert (K : match Parse (newParser idt_init (runes "USE NULL")) with PCrash => true | _ => false end = true) by (vm_compute; reflexivity).
  destruct (Parse (newParser idt_init (runes "USE NULL"))); discriminate.
Qed.
