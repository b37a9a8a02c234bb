(** Only COPY takes the text behind it from the parser. *)

From Verif Require Import ModelParser SpecParser SpecFails LemmasBase LemmasParser.

(** The action does not take the scanner's reader. *)
Fixpoint noread {A} (g : act A) : Prop :=
  match g with
  | ARet _ | AError | ACrash | AFuel => True
  | AScan k | ATok k => forall t, noread (k t)
  | AUnscan k => noread k
  | AIntern _ k => forall i, noread (k i)
  | AName _ k => forall b, noread (k b)
  | ABytes _ k => forall b, noread (k b)
  | AReader _ => False
  end.

(** Where it does, it does so once, and what it then returns is [R]. *)
Fixpoint gives {A} (R : A -> Prop) (g : act A) : Prop :=
  match g with
  | ARet a => R a
  | AError | ACrash | AFuel => True
  | AScan k | ATok k => forall t, gives R (k t)
  | AUnscan k => gives R k
  | AIntern _ k => forall i, gives R (k i)
  | AName _ k => forall b, gives R (k b)
  | ABytes _ k => forall b, gives R (k b)
  | AReader k => forall z, gives R (k z)
  end.
Fixpoint reads {A} (R : A -> Prop) (g : act A) : Prop :=
  match g with
  | ARet _ | AError | ACrash | AFuel => True
  | AScan k | ATok k => forall t, reads R (k t)
  | AUnscan k => reads R k
  | AIntern _ k => forall i, reads R (k i)
  | AName _ k => forall b, reads R (k b)
  | ABytes _ k => forall b, reads R (k b)
  | AReader k => forall z, noread (k z) /\ gives R (k z)
  end.

Lemma n_bind {A B} (g : act A) (h : A -> act B) : noread g -> (forall a, noread (h a)) -> noread (abind g h).
Proof. intros H Hh. induction g; cbn [abind noread] in *; auto. Qed.
Lemma n_loop {S R} (body : S -> act (S + R)) : (forall s, noread (body s)) -> forall n s, noread (aloop n body s).
Proof. intros Hb n. induction n as [|n IH]; intros s; cbn [aloop]; [exact Logic.I|]. apply n_bind; [apply Hb|]. intros [s'|r]; [apply IH|exact Logic.I]. Qed.
Lemma n_reads {A} (R : A -> Prop) (g : act A) : noread g -> reads R g.
Proof. induction g; cbn [noread reads] in *; auto. contradiction. Qed.
Lemma g_bind {A B} (R : A -> Prop) (R' : B -> Prop) (g : act A) (h : A -> act B) : gives R g -> (forall a, R a -> gives R' (h a)) -> gives R' (abind g h).
Proof. intros H Hh. induction g; cbn [abind gives] in *; auto. Qed.
Lemma g_any {A} (R : A -> Prop) (g : act A) : (forall a, R a) -> gives R g.
Proof. intros HR. induction g; cbn [gives]; auto. Qed.
(** Reading in the first part, in the second part. *)
Lemma r_first {A B} (R : A -> Prop) (R' : B -> Prop) (g : act A) (h : A -> act B) :
  reads R g -> (forall a, noread (h a)) -> (forall a, R a -> gives R' (h a)) -> reads R' (abind g h).
Proof.
  intros H Hn Hh. induction g as [a| | | |k IH|k IH|k IH|s k IH|i k IH|l k IH|k IH]; cbn [abind reads] in *; auto.
  - now apply n_reads.
  - intros z. destruct (H z) as [H1 H2]. split; [now apply n_bind|]. now apply (g_bind R).
Qed.
Lemma r_second {A B} (R' : B -> Prop) (g : act A) (h : A -> act B) : noread g -> (forall a, reads R' (h a)) -> reads R' (abind g h).
Proof. intros H Hh. induction g; cbn [abind noread reads] in *; auto. contradiction. Qed.

Create HintDb noread.
Ltac n1 :=
  first [ solve [auto with noread nocore]
        | lazymatch goal with
          | |- noread (abind _ _) => apply n_bind; [|intros ?]
          | |- noread (ARet _) => exact Logic.I
          | |- noread AError => exact Logic.I
          | |- noread ACrash => exact Logic.I
          | |- noread AFuel => exact Logic.I
          | |- noread (AScan _) => cbn [noread]; intros ?
          | |- noread (ATok _) => cbn [noread]; intros ?
          | |- noread (AUnscan _) => cbn [noread]
          | |- noread (AIntern _ _) => cbn [noread]; intros ?
          | |- noread (AName _ _) => cbn [noread]; intros ?
          | |- noread (ABytes _ _) => cbn [noread]; intros ?
          | |- noread (aloop _ _ _) => apply n_loop; intros ?
          | |- noread (match ?x with _ => _ end) => destruct x
          | |- noread (let _ := _ in _) => cbv zeta
          | |- True => exact Logic.I
          end ]; cbv beta iota.
Ltac ns := repeat n1.

Lemma n_scan : noread scan_. Proof. unfold scan_. ns. Qed.
Lemma n_unscan : noread unscan_. Proof. unfold unscan_. ns. Qed.
Lemma n_tok : noread tok_. Proof. unfold tok_. ns. Qed.
Lemma n_intern s : noread (intern_ s). Proof. unfold intern_. ns. Qed.
Lemma n_name i : noread (name_ i). Proof. unfold name_. ns. Qed.
Lemma n_got {A} : noread (@errorGot A). Proof. unfold errorGot. ns. Qed.
#[global] Hint Resolve n_scan n_unscan n_tok n_intern n_name n_got : noread.

Lemma n_expectReserved ids : noread (expectReserved ids). Proof. unfold expectReserved. ns. Qed.
Lemma n_optionalReserved ids : noread (optionalReserved ids). Proof. unfold optionalReserved. ns. Qed.
Lemma n_maybeToken r : noread (maybeToken r). Proof. unfold maybeToken. ns. Qed.
Lemma n_expectTokens rs : noread (expectTokens rs). Proof. unfold expectTokens. ns. Qed.
Lemma n_expectIdentifier : noread expectIdentifier. Proof. unfold expectIdentifier. ns. Qed.
Lemma n_maybeIdentifier i : noread (maybeIdentifier i). Proof. unfold maybeIdentifier. ns. Qed.
Lemma n_expectInteger lo hi : noread (expectInteger lo hi). Proof. unfold expectInteger. ns. Qed.
Lemma n_adjust e : noread (adjust e). Proof. unfold adjust. ns. Qed.
Lemma n_expectEndOfStatement : noread expectEndOfStatement. Proof. unfold expectEndOfStatement. ns. Qed.
#[global] Hint Resolve n_expectReserved n_optionalReserved n_maybeToken n_expectTokens n_expectIdentifier n_maybeIdentifier n_expectInteger n_adjust n_expectEndOfStatement : noread.

Lemma n_parseSchemaName : noread parseSchemaName. Proof. unfold parseSchemaName. ns. Qed.
#[global] Hint Resolve n_parseSchemaName : noread.
Lemma n_parseTableName : noread parseTableName. Proof. unfold parseTableName. ns. Qed.
#[global] Hint Resolve n_parseTableName : noread.
Lemma n_parseAlias b : noread (parseAlias b). Proof. unfold parseAlias. ns. Qed.
#[global] Hint Resolve n_parseAlias : noread.
Lemma n_parseTableAlias : noread parseTableAlias. Proof. unfold parseTableAlias. ns. Qed.
#[global] Hint Resolve n_parseTableAlias : noread.
Lemma n_parseColumns n : noread (parseColumns n). Proof. unfold parseColumns. ns. Qed.
#[global] Hint Resolve n_parseColumns : noread.
Lemma n_parseColumnAliases n : noread (parseColumnAliases n). Proof. unfold parseColumnAliases. ns. Qed.
#[global] Hint Resolve n_parseColumnAliases : noread.
Lemma n_parseDistinctColumns n : noread (parseDistinctColumns n). Proof. unfold parseDistinctColumns. ns. Qed.
#[global] Hint Resolve n_parseDistinctColumns : noread.
Lemma n_parseKey n b : noread (parseKey n b). Proof. unfold parseKey. ns. Qed.
#[global] Hint Resolve n_parseKey : noread.
Lemma n_parseRefAction : noread parseRefAction. Proof. unfold parseRefAction. ns. Qed.
#[global] Hint Resolve n_parseRefAction : noread.
Lemma n_parseOnActions n fk : noread (parseOnActions n fk). Proof. unfold parseOnActions. ns. Qed.
#[global] Hint Resolve n_parseOnActions : noread.
Lemma n_parseForeignKey n cn : noread (parseForeignKey n cn). Proof. unfold parseForeignKey. ns. Qed.
#[global] Hint Resolve n_parseForeignKey : noread.
Lemma n_parseColumnType : noread parseColumnType. Proof. unfold parseColumnType. ns. Qed.
#[global] Hint Resolve n_parseColumnType : noread.
Lemma n_columnNames cols : noread (columnNames cols). Proof. induction cols; cbn [columnNames]; ns. Qed.
#[global] Hint Resolve n_columnNames : noread.
Lemma n_parseConstraintName : noread parseConstraintName. Proof. unfold parseConstraintName. ns. Qed.
#[global] Hint Resolve n_parseConstraintName : noread.
Lemma n_checkKeys key csts : noread (checkKeys key csts). Proof. induction csts; cbn [checkKeys]; ns. Qed.
#[global] Hint Resolve n_checkKeys : noread.
Lemma n_makeKeyConstraintName cn key s : noread (makeKeyConstraintName cn key s). Proof. unfold makeKeyConstraintName. ns. Qed.
#[global] Hint Resolve n_makeKeyConstraintName : noread.
Lemma n_addKeyConstraint s ct cn key : noread (addKeyConstraint s ct cn key). Proof. unfold addKeyConstraint. ns. Qed.
#[global] Hint Resolve n_addKeyConstraint : noread.
Lemma n_addColumnConstraint s ct cn num : noread (addColumnConstraint s ct cn num). Proof. unfold addColumnConstraint. ns. Qed.
#[global] Hint Resolve n_addColumnConstraint : noread.
Lemma n_parseShowFromTable : noread parseShowFromTable. Proof. unfold parseShowFromTable. ns. Qed.
#[global] Hint Resolve n_parseShowFromTable : noread.
Lemma n_optionalBinaryOp : noread optionalBinaryOp. Proof. unfold optionalBinaryOp. ns. Qed.
#[global] Hint Resolve n_optionalBinaryOp : noread.
Lemma n_parseShow : noread parseShow. Proof. unfold parseShow. ns. Qed.
#[global] Hint Resolve n_parseShow : noread.
Section Nested.
  Variable n : nat.
  Variable subExpr : unit -> act expr.
  Variable fromItem : unit -> act fromitem.
  Hypothesis HE : noread (subExpr tt).
  Hypothesis HF : noread (fromItem tt).
  Hint Resolve HE HF : noread.
  Lemma n_parseExpr_ : noread (parseExpr_ subExpr). Proof. unfold parseExpr_. ns. Qed.
  Hint Resolve n_parseExpr_ : noread.
  Lemma n_parseValues_ : noread (parseValues_ n subExpr). Proof. unfold parseValues_. ns. Qed.
  Hint Resolve n_parseValues_ : noread.
  Lemma n_parseFromList_ : noread (parseFromList_ n fromItem). Proof. unfold parseFromList_. ns. Qed.
  Hint Resolve n_parseFromList_ : noread.
  Lemma n_parseResults_ : noread (parseResults_ n subExpr). Proof. unfold parseResults_. ns. Qed.
  Hint Resolve n_parseResults_ : noread.
  Lemma n_parseGroupBy_ : noread (parseGroupBy_ n subExpr). Proof. unfold parseGroupBy_. ns. Qed.
  Hint Resolve n_parseGroupBy_ : noread.
  Lemma n_parseOrderBy_ : noread (parseOrderBy_ n). Proof. unfold parseOrderBy_. ns. Qed.
  Hint Resolve n_parseOrderBy_ : noread.
  Lemma n_optionalExpr_ kw : noread (optionalExpr_ subExpr kw). Proof. unfold optionalExpr_. ns. Qed.
  Hint Resolve n_optionalExpr_ : noread.
  Lemma n_parseSelect_ : noread (parseSelect_ n subExpr fromItem). Proof. unfold parseSelect_. ns. Qed.
  Hint Resolve n_parseSelect_ : noread.
  Lemma n_optionalSubquery_ : noread (optionalSubquery_ n subExpr fromItem). Proof. unfold optionalSubquery_. ns. Qed.
  Hint Resolve n_optionalSubquery_ : noread.
  Lemma n_parseSubquery_ : noread (parseSubquery_ n subExpr fromItem). Proof. unfold parseSubquery_. ns. Qed.
  Hint Resolve n_parseSubquery_ : noread.
  Lemma n_parseCall_ id : noread (parseCall_ n subExpr id). Proof. unfold parseCall_. ns. Qed.
  Hint Resolve n_parseCall_ : noread.
  Lemma n_parseRef_ : noread (parseRef_ n). Proof. unfold parseRef_. ns. Qed.
  Hint Resolve n_parseRef_ : noread.
  Lemma n_parseOperand_ : noread (parseOperand_ n subExpr fromItem). Proof. unfold parseOperand_. ns. Qed.
  Hint Resolve n_parseOperand_ : noread.
  Lemma n_parsePostfix_ e : noread (parsePostfix_ n subExpr fromItem e). Proof. unfold parsePostfix_. ns. Qed.
  Hint Resolve n_parsePostfix_ : noread.
  Lemma n_subExprBody : noread (subExprBody n subExpr fromItem). Proof. unfold subExprBody. ns. Qed.
  Hint Resolve n_subExprBody : noread.
  Lemma n_parseFromStmt_ s : noread (parseFromStmt_ n s). Proof. unfold parseFromStmt_. ns. Qed.
  Hint Resolve n_parseFromStmt_ : noread.
  Lemma n_parseJoinType_ : noread parseJoinType_. Proof. unfold parseJoinType_. ns. Qed.
  Hint Resolve n_parseJoinType_ : noread.
  Lemma n_fromItemBody : noread (fromItemBody n subExpr fromItem). Proof. unfold fromItemBody. ns. Qed.
  Hint Resolve n_fromItemBody : noread.
End Nested.
Lemma n_nested n : noread (parseSubExpr n tt) /\ noread (parseFromItem n tt).
Proof. induction n as [|n [IH1 IH2]]; cbn [parseSubExpr parseFromItem]; [now split|]. split; [now apply n_subExprBody|now apply n_fromItemBody]. Qed.
Lemma n_parseExpr n : noread (parseExpr n). Proof. apply n_parseExpr_; apply n_nested. Qed.
#[global] Hint Resolve n_parseExpr : noread.
Lemma n_parseSelect n : noread (parseSelect n). Proof. apply n_parseSelect_; apply n_nested. Qed.
#[global] Hint Resolve n_parseSelect : noread.
Lemma n_parseValues n : noread (parseValues n). Proof. apply n_parseValues_; apply n_nested. Qed.
#[global] Hint Resolve n_parseValues : noread.
Lemma n_optionalExpr n kw : noread (optionalExpr_ (parseSubExpr n) kw). Proof. apply n_optionalExpr_; apply n_nested. Qed.
#[global] Hint Resolve n_optionalExpr : noread.
Lemma n_columnConstraint n nam st : noread (columnConstraint n nam st). Proof. unfold columnConstraint. ns. Qed.
#[global] Hint Resolve n_columnConstraint : noread.
Lemma n_parseColumn n s : noread (parseColumn n s). Proof. unfold parseColumn. ns. Qed.
#[global] Hint Resolve n_parseColumn : noread.
Lemma n_createDetail n s : noread (createDetail n s). Proof. unfold createDetail. ns. Qed.
#[global] Hint Resolve n_createDetail : noread.
Lemma n_parseCreateDetails n : noread (parseCreateDetails n). Proof. unfold parseCreateDetails. ns. Qed.
#[global] Hint Resolve n_parseCreateDetails : noread.
Lemma n_ifNotExists : noread ifNotExists. Proof. unfold ifNotExists. ns. Qed.
#[global] Hint Resolve n_ifNotExists : noread.
Lemma n_ifExists : noread ifExists. Proof. unfold ifExists. ns. Qed.
#[global] Hint Resolve n_ifExists : noread.
Lemma n_alterAction n : noread (alterAction n). Proof. unfold alterAction. ns. Qed.
#[global] Hint Resolve n_alterAction : noread.
Lemma n_parseCreateTable n : noread (parseCreateTable n). Proof. unfold parseCreateTable. ns. Qed.
#[global] Hint Resolve n_parseCreateTable : noread.
Lemma n_parseAlterTable n : noread (parseAlterTable n). Proof. unfold parseAlterTable. ns. Qed.
#[global] Hint Resolve n_parseAlterTable : noread.
Lemma n_parseCreateIndex n b : noread (parseCreateIndex n b). Proof. unfold parseCreateIndex. ns. Qed.
#[global] Hint Resolve n_parseCreateIndex : noread.
Lemma n_parseDelete n : noread (parseDelete n). Proof. unfold parseDelete. ns. Qed.
#[global] Hint Resolve n_parseDelete : noread.
Lemma n_parseDropTable n : noread (parseDropTable n). Proof. unfold parseDropTable. ns. Qed.
#[global] Hint Resolve n_parseDropTable : noread.
Lemma n_parseDropIndex : noread parseDropIndex. Proof. unfold parseDropIndex. ns. Qed.
#[global] Hint Resolve n_parseDropIndex : noread.
Lemma n_exprOrDefault n : noread (exprOrDefault n). Proof. unfold exprOrDefault. ns. Qed.
#[global] Hint Resolve n_exprOrDefault : noread.
Lemma n_parseInsert n : noread (parseInsert n). Proof. unfold parseInsert. ns. Qed.
#[global] Hint Resolve n_parseInsert : noread.
Lemma n_parseUpdate n : noread (parseUpdate n). Proof. unfold parseUpdate. ns. Qed.
#[global] Hint Resolve n_parseUpdate : noread.
Section Lib.
  Context {X : FloatLib} {P : PrintLib}.
  Lemma n_parseOptions n : noread (parseOptions n). Proof. unfold parseOptions. ns. Qed.
  Hint Resolve n_parseOptions : noread.
  Lemma n_parseCreateDatabase n : noread (parseCreateDatabase n). Proof. unfold parseCreateDatabase. ns. Qed.
  Hint Resolve n_parseCreateDatabase : noread.
  Lemma n_literalText e : noread (literalText e). Proof. unfold literalText. ns. Qed.
  Hint Resolve n_literalText : noread.
  Lemma n_parseSet n : noread (parseSet n). Proof. unfold parseSet. ns. Qed.
  Hint Resolve n_parseSet : noread.
  Lemma n_parseUse n : noread (parseUse n). Proof. unfold parseUse. ns. Qed.
  Hint Resolve n_parseUse : noread.
  Lemma n_parseDropDatabase : noread parseDropDatabase. Proof. unfold parseDropDatabase. ns. Qed.
  Hint Resolve n_parseDropDatabase : noread.
  Lemma n_parseCreateSchema : noread parseCreateSchema. Proof. unfold parseCreateSchema. ns. Qed.
  Hint Resolve n_parseCreateSchema : noread.
  Lemma n_parseDropSchema : noread parseDropSchema. Proof. unfold parseDropSchema. ns. Qed.
  Hint Resolve n_parseDropSchema : noread.
  Lemma n_parseExplain n : noread (parseExplain n). Proof. unfold parseExplain. ns. Qed.
  Hint Resolve n_parseExplain : noread.


  Lemma r_parseCopy n : reads (fun s => exists tn cols line delim, s = SCopy tn cols line delim) (parseCopy n).
  Proof.
    unfold parseCopy. apply r_second; [ns|]. intros tn. apply r_second; [ns|]. intros pa. apply r_second; [ns|]. intros cols. apply r_second; [ns|]. intros _. apply r_second; [ns|]. intros id.
    destruct (negb _); [exact Logic.I|]. apply r_second; [ns|]. intros b. apply r_second; [ns|]. intros delim. intros z. split; [exact Logic.I|]. cbn. eauto.
  Qed.
  Lemma r_parseStmtOf n kw : reads copying (parseStmtOf n kw).
  Proof.
    unfold parseStmtOf. cbv zeta. destruct (kw =? kALTER); [apply n_reads; ns|]. destruct (kw =? kBEGIN); [apply n_reads; ns|]. destruct (kw =? kCOMMIT); [apply n_reads; ns|].
    destruct (kw =? kCOPY); [|apply n_reads; ns]. apply (r_first (fun s => exists tn cols line delim, s = SCopy tn cols line delim)); [apply r_parseCopy|intros; exact Logic.I|].
    intros a (tn & cols & line & delim & ->). cbn. unfold copying. eauto.
  Qed.
  Lemma r_ended n kw : reads copying (let+ s := parseStmtOf n kw in expectEndOfStatement ;+ ARet s).
  Proof. apply (r_first copying); [apply r_parseStmtOf|intros; ns|]. intros a H. eapply (g_bind (fun _ => True)); [now apply g_any|]. intros; exact H. Qed.
  Lemma r_restOf n tk : reads copying (restOf n tk).
  Proof. unfold restOf. destruct (_ =? _); [apply n_reads; ns|]. destruct (is_reserved _ _); [apply r_ended|apply n_reads; ns]. Qed.
  Lemma r_parseWhole n : reads copying (parseWhole n).
  Proof.
    unfold parseWhole, parseStmt. apply (r_first copying); [|intros; ns|].
    - apply r_second; [ns|]. intros [|]; [exact Logic.I|]. apply r_second; [ns|]. intros kw. apply r_parseStmtOf.
    - intros a H. eapply (g_bind (fun _ => True)); [now apply g_any|]. intros; exact H.
  Qed.
End Lib.
