(** More fuel does not change what the parser does. *)

From Verif Require Import ModelParser SpecParser.

(** [h] does what [g] does, or goes on where [g] has no fuel. *)
Inductive fits {A} : act A -> act A -> Prop :=
| f_same g : fits g g
| f_fuel h : fits AFuel h
| f_scan k k' : (forall t, fits (k t) (k' t)) -> fits (AScan k) (AScan k')
| f_unscan k k' : fits k k' -> fits (AUnscan k) (AUnscan k')
| f_tok k k' : (forall t, fits (k t) (k' t)) -> fits (ATok k) (ATok k')
| f_intern s k k' : (forall t, fits (k t) (k' t)) -> fits (AIntern s k) (AIntern s k')
| f_name s k k' : (forall t, fits (k t) (k' t)) -> fits (AName s k) (AName s k')
| f_bytes s k k' : (forall t, fits (k t) (k' t)) -> fits (ABytes s k) (ABytes s k')
| f_reader k k' : (forall t, fits (k t) (k' t)) -> fits (AReader k) (AReader k').

Lemma f_bind {A B} (g g' : act A) (h h' : A -> act B) : fits g g' -> (forall a, fits (h a) (h' a)) -> fits (abind g h) (abind g' h').
Proof.
  intros H Hh. induction H as [g| | | | | | | | ]; cbn [abind]; try (constructor; assumption).
  induction g; cbn [abind]; try (constructor; assumption); try apply f_same. apply Hh.
Qed.
Lemma f_loop {S R} (body body' : S -> act (S + R)) : (forall s, fits (body s) (body' s)) -> forall n n' s, (n <= n')%nat -> fits (aloop n body s) (aloop n' body' s).
Proof.
  intros Hb n. induction n as [|n IH]; intros n' s H; cbn [aloop]; [apply f_fuel|]. destruct n' as [|n']; [inversion H|]. cbn [aloop].
  apply f_bind; [apply Hb|]. intros [s'|r]; [apply IH, le_S_n, H|apply f_same].
Qed.

Create HintDb fits.
Ltac f1 :=
  first [ lazymatch goal with |- fits ?g ?h => constr_eq g h; exact (f_same g) end
        | solve [auto with fits nocore]
        | lazymatch goal with
          | |- fits (abind _ _) (abind _ _) => apply f_bind; [|intros ?]
          | |- fits (aloop _ _ _) (aloop _ _ _) => apply f_loop; [intros ?|assumption]
          | |- fits (AScan _) _ => apply f_scan; intros ?
          | |- fits (AUnscan _) _ => apply f_unscan
          | |- fits (ATok _) _ => apply f_tok; intros ?
          | |- fits (AReader _) _ => apply f_reader; intros ?
          | |- fits (match ?x with _ => _ end) (match ?x with _ => _ end) => destruct x
          | |- fits (let _ := _ in _) _ => cbv zeta
          end ]; cbv beta iota.
Ltac fs := repeat f1.

Section More.
  Variables n n' : nat.
  Hypothesis Hn : (n <= n')%nat.
  Lemma f_parseColumns : fits (parseColumns n) (parseColumns n'). Proof. unfold parseColumns. fs. Qed.
  Lemma f_parseDistinctColumns : fits (parseDistinctColumns n) (parseDistinctColumns n'). Proof. unfold parseDistinctColumns. fs. Qed.
  Lemma f_parseKey b : fits (parseKey n b) (parseKey n' b). Proof. unfold parseKey. fs. Qed.
  Lemma f_parseOnActions fk : fits (parseOnActions n fk) (parseOnActions n' fk). Proof. unfold parseOnActions. fs. Qed.
  Hint Resolve f_parseColumns f_parseDistinctColumns f_parseKey f_parseOnActions : fits.
  Lemma f_parseColumnAliases : fits (parseColumnAliases n) (parseColumnAliases n'). Proof. unfold parseColumnAliases. fs. Qed.
  Lemma f_parseForeignKey cn : fits (parseForeignKey n cn) (parseForeignKey n' cn). Proof. unfold parseForeignKey. fs. Qed.
  Hint Resolve f_parseColumnAliases f_parseForeignKey : fits.

  Section Nested.
    Variables subExpr subExpr' : unit -> act expr.
    Variables fromItem fromItem' : unit -> act fromitem.
    Hypothesis HE : fits (subExpr tt) (subExpr' tt).
    Hypothesis HF : fits (fromItem tt) (fromItem' tt).
    Hint Resolve HE HF : fits.

    Lemma f_parseExpr_ : fits (parseExpr_ subExpr) (parseExpr_ subExpr'). Proof. unfold parseExpr_. fs. Qed.
    Hint Resolve f_parseExpr_ : fits.
    Lemma f_parseValues_ : fits (parseValues_ n subExpr) (parseValues_ n' subExpr'). Proof. unfold parseValues_. fs. Qed.
    Lemma f_parseFromList_ : fits (parseFromList_ n fromItem) (parseFromList_ n' fromItem'). Proof. unfold parseFromList_. fs. Qed.
    Lemma f_parseResults_ : fits (parseResults_ n subExpr) (parseResults_ n' subExpr'). Proof. unfold parseResults_. fs. Qed.
    Lemma f_parseGroupBy_ : fits (parseGroupBy_ n subExpr) (parseGroupBy_ n' subExpr'). Proof. unfold parseGroupBy_. fs. Qed.
    Lemma f_parseOrderBy_ : fits (parseOrderBy_ n) (parseOrderBy_ n'). Proof. unfold parseOrderBy_. fs. Qed.
    Lemma f_optionalExpr_ kw : fits (optionalExpr_ subExpr kw) (optionalExpr_ subExpr' kw). Proof. unfold optionalExpr_. fs. Qed.
    Hint Resolve f_parseValues_ f_parseFromList_ f_parseResults_ f_parseGroupBy_ f_parseOrderBy_ f_optionalExpr_ : fits.
    Lemma f_parseSelect_ : fits (parseSelect_ n subExpr fromItem) (parseSelect_ n' subExpr' fromItem'). Proof. unfold parseSelect_. fs. Qed.
    Hint Resolve f_parseSelect_ : fits.
    Lemma f_optionalSubquery_ : fits (optionalSubquery_ n subExpr fromItem) (optionalSubquery_ n' subExpr' fromItem'). Proof. unfold optionalSubquery_. fs. Qed.
    Hint Resolve f_optionalSubquery_ : fits.
    Lemma f_parseSubquery_ : fits (parseSubquery_ n subExpr fromItem) (parseSubquery_ n' subExpr' fromItem'). Proof. unfold parseSubquery_. fs. Qed.
    Lemma f_parseCall_ id : fits (parseCall_ n subExpr id) (parseCall_ n' subExpr' id). Proof. unfold parseCall_. fs. Qed.
    Lemma f_parseRef_ : fits (parseRef_ n) (parseRef_ n'). Proof. unfold parseRef_. fs. Qed.
    Hint Resolve f_parseSubquery_ f_parseCall_ f_parseRef_ : fits.
    Lemma f_parseOperand_ : fits (parseOperand_ n subExpr fromItem) (parseOperand_ n' subExpr' fromItem'). Proof. unfold parseOperand_. fs. Qed.
    Lemma f_parsePostfix_ e : fits (parsePostfix_ n subExpr fromItem e) (parsePostfix_ n' subExpr' fromItem' e). Proof. unfold parsePostfix_. fs. Qed.
    Hint Resolve f_parseOperand_ f_parsePostfix_ : fits.
    Lemma f_subExprBody : fits (subExprBody n subExpr fromItem) (subExprBody n' subExpr' fromItem'). Proof. unfold subExprBody. fs. Qed.
    Lemma f_parseFromStmt_ s : fits (parseFromStmt_ n s) (parseFromStmt_ n' s). Proof. unfold parseFromStmt_. fs. Qed.
    Hint Resolve f_parseFromStmt_ : fits.
    Lemma f_fromItemBody : fits (fromItemBody n subExpr fromItem) (fromItemBody n' subExpr' fromItem'). Proof. unfold fromItemBody. fs. Qed.
  End Nested.
End More.

Lemma f_nested n : forall n', (n <= n')%nat -> fits (parseSubExpr n tt) (parseSubExpr n' tt) /\ fits (parseFromItem n tt) (parseFromItem n' tt).
Proof.
  induction n as [|n IH]; intros n' H; [split; apply f_fuel|]. destruct n' as [|n']; [inversion H|]. apply le_S_n in H. destruct (IH n' H) as [I1 I2]. cbn [parseSubExpr parseFromItem].
  split; [now apply f_subExprBody|now apply f_fromItemBody].
Qed.

Section Statements.
  Context {X : FloatLib} {L : CaseLib} {P : PrintLib}.
  Variables n n' : nat.
  Hypothesis Hn : (n <= n')%nat.
  Lemma f_parseExpr : fits (parseExpr n) (parseExpr n'). Proof. apply f_parseExpr_, f_nested, Hn. Qed.
  Lemma f_parseSelect : fits (parseSelect n) (parseSelect n'). Proof. apply f_parseSelect_; [exact Hn|apply f_nested, Hn..]. Qed.
  Lemma f_parseValues : fits (parseValues n) (parseValues n'). Proof. apply f_parseValues_; [exact Hn|apply f_nested, Hn]. Qed.
  Lemma f_optionalExpr kw : fits (optionalExpr_ (parseSubExpr n) kw) (optionalExpr_ (parseSubExpr n') kw). Proof. apply f_optionalExpr_, f_nested, Hn. Qed.
  Hint Resolve f_parseExpr f_parseSelect f_parseValues f_optionalExpr : fits.
  Hint Resolve f_parseColumns f_parseDistinctColumns f_parseKey f_parseOnActions f_parseColumnAliases f_parseForeignKey : fits.
  Hint Resolve Hn : fits.
  Lemma f_columnConstraint nam st : fits (columnConstraint n nam st) (columnConstraint n' nam st). Proof. unfold columnConstraint. fs. Qed.
  Hint Resolve f_columnConstraint : fits.
  Lemma f_parseColumn s : fits (parseColumn n s) (parseColumn n' s). Proof. unfold parseColumn. fs. Qed.
  Hint Resolve f_parseColumn : fits.
  Lemma f_createDetail s : fits (createDetail n s) (createDetail n' s). Proof. unfold createDetail. fs. Qed.
  Hint Resolve f_createDetail : fits.
  Lemma f_parseCreateDetails : fits (parseCreateDetails n) (parseCreateDetails n'). Proof. unfold parseCreateDetails. fs. Qed.
  Lemma f_alterAction : fits (alterAction n) (alterAction n'). Proof. unfold alterAction. fs. Qed.
  Hint Resolve f_parseCreateDetails f_alterAction : fits.
  Lemma f_parseCreateTable : fits (parseCreateTable n) (parseCreateTable n'). Proof. unfold parseCreateTable. fs. Qed.
  Lemma f_parseAlterTable : fits (parseAlterTable n) (parseAlterTable n'). Proof. unfold parseAlterTable. fs. Qed.
  Lemma f_parseCreateIndex b : fits (parseCreateIndex n b) (parseCreateIndex n' b). Proof. unfold parseCreateIndex. fs. Qed.
  Lemma f_parseDelete : fits (parseDelete n) (parseDelete n'). Proof. unfold parseDelete. fs. Qed.
  Lemma f_parseDropTable : fits (parseDropTable n) (parseDropTable n'). Proof. unfold parseDropTable. fs. Qed.
  Lemma f_exprOrDefault : fits (exprOrDefault n) (exprOrDefault n'). Proof. unfold exprOrDefault. fs. Qed.
  Hint Resolve f_parseCreateTable f_parseAlterTable f_parseCreateIndex f_parseDelete f_parseDropTable f_exprOrDefault : fits.
  Lemma f_parseInsert : fits (parseInsert n) (parseInsert n'). Proof. unfold parseInsert. fs. Qed.
  Lemma f_parseCopy : fits (parseCopy n) (parseCopy n'). Proof. unfold parseCopy. fs. Qed.
  Lemma f_parseUpdate : fits (parseUpdate n) (parseUpdate n'). Proof. unfold parseUpdate. fs. Qed.
  Lemma f_parseOptions : fits (parseOptions n) (parseOptions n'). Proof. unfold parseOptions. fs. Qed.
  Hint Resolve f_parseInsert f_parseCopy f_parseUpdate f_parseOptions : fits.
  Lemma f_parseCreateDatabase : fits (parseCreateDatabase n) (parseCreateDatabase n'). Proof. unfold parseCreateDatabase. fs. Qed.
  Lemma f_parseSet : fits (parseSet n) (parseSet n'). Proof. unfold parseSet. fs. Qed.
  Lemma f_parseUse : fits (parseUse n) (parseUse n'). Proof. unfold parseUse. fs. Qed.
  Lemma f_parseExplain : fits (parseExplain n) (parseExplain n'). Proof. unfold parseExplain. fs. Qed.
  Hint Resolve f_parseCreateDatabase f_parseSet f_parseUse f_parseExplain : fits.
  Lemma f_parseStmtOf kw : fits (parseStmtOf n kw) (parseStmtOf n' kw). Proof. unfold parseStmtOf. fs. Qed.
  Hint Resolve f_parseStmtOf : fits.
  Lemma f_parseStmt : fits (parseStmt n) (parseStmt n'). Proof. unfold parseStmt. fs. Qed.
  Hint Resolve f_parseStmt : fits.
  Lemma f_parseWhole : fits (parseWhole n) (parseWhole n'). Proof. unfold parseWhole. fs. Qed.
End Statements.

Section Runs.
  Context {X : FloatLib} {L : CaseLib} {U : RuneLib} {B : BufLib}.

  Lemma fits_run {A} (g h : act A) : fits g h -> forall p, run g p <> Stuck -> run h p = run g p.
  Proof.
    induction 1 as [g|h|k k' H IH|k k' H IH|k k' H IH|s k k' H IH|s k k' H IH|s k k' H IH|k k' H IH]; intros p N; cbn [run] in *; auto; try contradiction.
    - destruct (scanRune p) as [[p' [|]]|]; auto.
    - destruct (unscan p); auto.
    - destruct (ID _ s false). auto.
  Qed.
  Lemma fits_t_run {A} (g h : act A) : fits g h -> forall p, t_run g p <> Stuck -> t_run h p = t_run g p.
  Proof.
    induction 1 as [g|h|k k' H IH|k k' H IH|k k' H IH|s k k' H IH|s k k' H IH|s k k' H IH|k k' H IH]; intros p N; cbn [t_run] in *; auto; try contradiction.
    - destruct (t_next p) as [[p' [|]]|]; auto.
    - destruct (t_back p); auto.
    - destruct (ID _ s false). auto.
  Qed.
End Runs.
