(** Concrete statements for the examples about what is accepted. *)

From Verif Require Import ModelParser SpecParser SpecTokens SpecAccepts SpecIdent LemmasBase LemmasIdent LemmasDemo LemmasDemoTyped LemmasDemoEngine LemmasDemoScan LemmasDemoParser LemmasGrammarLink LemmasDemoGrammar LemmasSoundWords LemmasSoundLink LemmasSoundGrammar.

(** What the grammar says is accepted. *)
Lemma text_says_accepts (X : FloatLib) (L : CaseLib) (P : PrintLib) T vs s : text_says T vs s -> text_accepts T vs s.
Proof.
  intros (ts & H1 & H2). exists ts. split; [|now apply says_accepts].
  clear H2. induction H1 as [|v k vs ts H _ IH]; constructor; [now apply tr_token|exact IH].
Qed.

(** Parameters are not. *)
Lemma no_parameter (X : FloatLib) (L : CaseLib) (P : PrintLib) T vs s i : text_accepts T vs s -> ~ In (TParameter i) vs.
Proof.
  intros (ts & H1 & H2) HI. apply accepts_plain in H2. induction H1 as [|v k vs ts H _ IH]; [exact HI|].
  inversion H2 as [|? ? P1 P2]; subst. destruct HI as [->|HI]; [|now apply IH].
  inversion H as [? ? HT|]; subst. inversion HT; subst. exact P1.
Qed.

Lemma demo_delete_parsed : exists p', Parse (demo_parser demo_delete) =
  PStmt (Some (SDelete {| tn_database := 0; tn_schema := 47; tn_table := 48 |} (Some (demo_grouped 49 50 51)))) p'.
Proof.
  assert (E : match Parse (demo_parser demo_delete) with PStmt s _ => Some s | _ => None end =
    Some (Some (SDelete {| tn_database := 0; tn_schema := 47; tn_table := 48 |} (Some (demo_grouped 49 50 51))))) by (vm_compute; reflexivity).
  destruct (Parse (demo_parser demo_delete)) as [s p'| | | |]; try discriminate E. injection E as ->. now exists p'.
Qed.

(** The grammar does not say all of it. *)
Definition demo_not : String.string := "DELETE FROM t WHERE NOT a IS NULL = b".
Definition demo_negated : stmt :=
  SDelete {| tn_database := 0; tn_schema := 0; tn_table := 47 |} (Some (BinaryExpr EqualOp (UnaryExpr NotOp (SExpr 49 [Ref [48]])) (Ref [50]))).
Lemma not_only_said : ~ (forall (X : FloatLib) (L : CaseLib) (U : RuneLib) (B : BufLib) (P : PrintLib), RuneLib_scan U -> forall input p s p',
  parsing input p -> p_unscanned p = 0%nat -> p_failed p = false -> real (s_ids (p_scanner p)) ->
  Parse p = PStmt (Some s) p' -> copies s = false ->
  exists vs left, statement_text (rest (p_scanner p)) vs left /\ text_says (s_ids (p_scanner p')) vs s).
Proof.
  intros H.
  assert (E : match Parse (demo_parser demo_not) with PStmt s _ => Some s | _ => None end = Some (Some demo_negated)) by (vm_compute; reflexivity).
  pose proof (H demo_X demo_L demo_U demo_B demo_P demo_U_scan (runes demo_not) (demo_parser demo_not) demo_negated) as K. clear H.
  destruct (Parse (demo_parser demo_not)) as [s p'| | | |]; try discriminate E. injection E as ->.
  destruct (K p' (demo_parsing _) eq_refl eq_refl demo_real eq_refl eq_refl) as (vs & left & _ & ts & _ & H2). clear K.
  unfold demo_negated in H2. inversion H2; subst; try (match goal with Q : _ _ _ (SDelete _ _) _ |- _ => inversion Q end).
  match goal with W : opt_whole _ _ _ _ _ |- _ => inversion W; subst end.
  match goal with W : whole _ _ _ _ |- _ => inversion W; subst end.
  match goal with T : tight _ |- _ => destruct T as (_ & _ & _ & _ & _ & T); vm_compute in T; now apply T end.
Qed.
