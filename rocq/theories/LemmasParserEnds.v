(** No function of the parser reads on behind a semicolon. *)

From Verif Require Import ModelParser SpecParser LemmasBase LemmasParserSafe LemmasAdjust SpecExpr.

(** No semicolon was read, but perhaps as the first token of the statement. *)
Definition noend (past : list tok) : Prop := ~ In KEnd (removelast past).
Definition good (past : list tok) : Prop := past <> [] /\ noend past.

Lemma good_cons t past : t <> KEnd -> good past -> good (t :: past).
Proof.
  intros Ht [H1 H2]. split; [discriminate|]. unfold noend. destruct past; [now elim H1|]. cbn [removelast]. intros [E|E]; [now apply Ht|]. apply H2. exact E.
Qed.
Lemma good_one t : good [t].
Proof. split; [discriminate|]. intros []. Qed.
Lemma noend_nil : noend [].
Proof. intros []. Qed.

(** Every scan has no semicolon behind it, nor has an error, its last token apart. *)
Fixpoint qp {A} (past : list tok) (g : act A) (Q : list tok -> A -> Prop) : Prop :=
  match g with
  | ARet a => Q past a
  | AError => past <> [] /\ noend (tl past)
  | ACrash | AFuel => True
  | AScan k => noend past /\ forall t, qp (t :: past) (k t) Q
  | AUnscan k => match past with [] => False | _ :: p => qp p k Q end
  | ATok k => match past with [] => False | t :: _ => qp past (k t) Q end
  | AIntern s k => forall i, qp past (k i) Q
  | AName i k => forall s, qp past (k s) Q
  | ABytes l k => forall b, qp past (k b) Q
  | AReader k => forall z, qp past (k z) Q
  end.

Lemma qp_mono {A} (g : act A) : forall past (Q Q' : list tok -> A -> Prop),
  (forall p a, Q p a -> Q' p a) -> qp past g Q -> qp past g Q'.
Proof.
  induction g as [a| | | |k IH|k IH|k IH|s k IH|i k IH|l k IH|k IH]; intros past Q Q' HQ; cbn [qp]; auto.
  - intros [H1 H2]. split; [exact H1|]. intros t. eapply IH; eauto.
  - destruct past; [tauto|]. eapply IH; eauto.
  - destruct past; [tauto|]. eapply IH; eauto.
  - intros H i. eapply IH; eauto.
  - intros H i'. eapply IH; eauto.
  - intros H i. eapply IH; eauto.
  - intros H i. eapply IH; eauto.
Qed.

Lemma qp_bind {A B} (g : act A) (h : A -> act B) : forall past Q,
  qp past g (fun p a => qp p (h a) Q) -> qp past (abind g h) Q.
Proof.
  induction g as [a| | | |k IH|k IH|k IH|s k IH|i k IH|l k IH|k IH]; intros past Q; cbn [qp abind]; auto.
  - intros [H1 H2]. split; [exact H1|]. intros t. now apply IH.
  - destruct past; [tauto|]. apply IH.
  - destruct past; [tauto|]. apply IH.
Qed.

Definition keeps {A} (g : act A) : Prop := forall past (Q : list tok -> A -> Prop),
  good past -> (forall p a, good p -> Q p a) -> qp past g Q.

Lemma noend_tl t past : good past -> t :: past <> [] /\ noend (tl (t :: past)).
Proof. intros [H1 H2]. split; [discriminate|exact H2]. Qed.
Lemma tl_noend past : good past -> past <> [] /\ noend (tl past).
Proof.
  intros [H1 H2]. split; [exact H1|]. destruct past as [|t [|t' past]]; [now elim H1|intros []|]. intros E. apply H2. right. exact E.
Qed.

Ltac gd := first [assumption | apply good_one | (apply good_cons; [first [discriminate | assumption]|gd])].

Lemma k_ret {A} (a : A) : keeps (ARet a).
Proof. intros past Q G HQ. now apply HQ. Qed.
Lemma k_error {A} : keeps (@AError A).
Proof. intros past Q G HQ. now apply tl_noend. Qed.
Lemma k_crash {A} : keeps (@ACrash A).
Proof. intros past Q G HQ. exact Logic.I. Qed.
Lemma k_fuel {A} : keeps (@AFuel A).
Proof. intros past Q G HQ. exact Logic.I. Qed.
Lemma k_bind {A B} (g : act A) (h : A -> act B) : keeps g -> (forall a, keeps (h a)) -> keeps (abind g h).
Proof. intros Hg Hh past Q G HQ. apply qp_bind. apply Hg; [exact G|]. intros p a G'. now apply Hh. Qed.
Lemma k_if {A} (b : bool) (g h : act A) : keeps g -> keeps h -> keeps (if b then g else h).
Proof. now destruct b. Qed.
Lemma k_loop {S R} (body : S -> act (S + R)) : (forall s, keeps (body s)) -> forall n s, keeps (aloop n body s).
Proof.
  intros Hb n. induction n as [|n IH]; intros s; cbn [aloop]; [apply k_fuel|]. apply k_bind; [apply Hb|]. intros [s'|r]; [apply IH|apply k_ret].
Qed.
Lemma k_intern s : keeps (intern_ s).
Proof. intros past Q G HQ. intros i. now apply HQ. Qed.
Lemma k_name i : keeps (name_ i).
Proof. intros past Q G HQ. intros s. now apply HQ. Qed.
Lemma k_bytes l : keeps (ABytes l ARet).
Proof. intros past Q G HQ. intros s. now apply HQ. Qed.
Lemma k_reader {A} (k : Z -> act A) : (forall z, keeps (k z)) -> keeps (AReader k).
Proof. intros H past Q G HQ z. now apply H. Qed.
Lemma k_tok : keeps tok_.
Proof. intros past Q G HQ. cbn. destruct past; [now destruct G as [[] _]|]. now apply HQ. Qed.

Lemma q_got {A} t past (Q : list tok -> A -> Prop) : noend past -> qp (t :: past) errorGot Q.
Proof. intros G. unfold errorGot. cbn [qp]. destruct t; cbn [qp]; try (split; [discriminate|exact G]). destruct some; cbn [qp]; [split; [discriminate|exact G]|exact Logic.I]. Qed.
Lemma k_got {A} : keeps (@errorGot A).
Proof. intros past Q G HQ. destruct past as [|t past]; [now destruct G as [[] _]|]. apply q_got. now apply tl_noend in G. Qed.
Lemma q_scan past (Q : list tok -> tok -> Prop) : noend past -> (forall t, Q (t :: past) t) -> qp past scan_ Q.
Proof. intros H1 H2. split; assumption. Qed.

Lemma q_expectReserved ids past (Q : list tok -> Z -> Prop) : noend past -> (forall id, In id ids -> Q (KReserved id :: past) id) -> qp past (expectReserved ids) Q.
Proof.
  intros G HQ. apply qp_bind, q_scan; [exact G|]. intros t. destruct (is_reserved t ids) eqn:E; [|now apply q_got].
  apply is_reserved_in in E. destruct E as (id & -> & I). now apply HQ.
Qed.
Lemma q_optionalReserved ids past (Q : list tok -> bool -> Prop) : noend past -> (forall id, In id ids -> Q (KReserved id :: past) true) -> Q past false -> qp past (optionalReserved ids) Q.
Proof.
  intros G HQ HN. apply qp_bind, q_scan; [exact G|]. intros t. destruct (is_reserved t ids) eqn:E; [|exact HN].
  apply is_reserved_in in E. destruct E as (id & -> & I). now apply (HQ id).
Qed.
Lemma q_maybeToken r past (Q : list tok -> bool -> Prop) : noend past -> (forall t, rune_of t = r -> Q (t :: past) true) -> Q past false -> qp past (maybeToken r) Q.
Proof.
  intros G HQ HN. apply qp_bind, q_scan; [exact G|]. intros t. destruct (Z.eqb_spec (rune_of t) r); [now apply HQ|exact HN].
Qed.

Lemma k_expectReserved ids : keeps (expectReserved ids).
Proof. intros past Q G HQ. apply q_expectReserved; [apply G|]. intros. apply HQ. gd. Qed.
Lemma k_optionalReserved ids : keeps (optionalReserved ids).
Proof. intros past Q G HQ. apply q_optionalReserved; [apply G| |now apply HQ]. intros. apply HQ. gd. Qed.
Lemma not_end t r : r <> -2 -> rune_of t = r -> t <> KEnd.
Proof. intros H <- ->. now apply H. Qed.
Lemma k_maybeToken r : r <> -2 -> keeps (maybeToken r).
Proof. intros Hr past Q G HQ. apply q_maybeToken; [apply G| |now apply HQ]. intros t E. apply HQ. apply good_cons; [eapply not_end; eassumption|exact G]. Qed.
Lemma k_expectTokens rs : ~ In (-2) rs -> keeps (expectTokens rs).
Proof.
  intros Hr past Q G HQ. apply qp_bind, q_scan; [apply G|]. intros t. destruct (existsb (Z.eqb (rune_of t)) rs) eqn:E; [|apply q_got, G].
  apply HQ. apply good_cons; [|exact G]. intros ->. apply Hr. apply existsb_exists in E. destruct E as (x & H1 & H2). apply Z.eqb_eq in H2. cbn in H2. congruence.
Qed.
Lemma k_expectIdentifier : keeps expectIdentifier.
Proof. intros past Q G HQ. apply qp_bind, q_scan; [apply G|]. intros t. destruct t; try (apply q_got, G). apply HQ. gd. Qed.
Lemma k_maybeIdentifier i : keeps (maybeIdentifier i).
Proof. intros past Q G HQ. apply qp_bind, q_scan; [apply G|]. intros t. destruct t; try (now apply HQ). destruct (id =? i); now (apply HQ; gd). Qed.
Lemma k_expectInteger lo hi : keeps (expectInteger lo hi).
Proof. intros past Q G HQ. apply qp_bind, q_scan; [apply G|]. intros t. destruct t; try (apply q_got, G). destruct ((i <? lo) || (hi <? i)); [apply q_got, G|]. apply HQ. gd. Qed.
Lemma k_adjust e : keeps (adjust e).
Proof. unfold adjust. destruct (adjustPrecedence _ e); [apply k_ret|apply k_fuel]. Qed.

Create HintDb keeps.
Ltac k1 :=
  lazymatch goal with
  | |- keeps (abind scan_ _) => solve [auto with keeps nocore]
  | |- keeps (abind _ _) => apply k_bind; [|intros ?]
  | |- keeps (ARet _) => apply k_ret
  | |- keeps AError => apply k_error
  | |- keeps ACrash => apply k_crash
  | |- keeps AFuel => apply k_fuel
  | |- keeps (errorGot) => apply k_got
  | |- keeps (intern_ _) => apply k_intern
  | |- keeps (name_ _) => apply k_name
  | |- keeps (ABytes _ ARet) => apply k_bytes
  | |- keeps (AReader _) => apply k_reader; intros ?
  | |- keeps tok_ => apply k_tok
  | |- keeps (expectReserved _) => apply k_expectReserved
  | |- keeps (optionalReserved _) => apply k_optionalReserved
  | |- keeps (maybeToken _) => apply k_maybeToken; discriminate
  | |- keeps (expectTokens _) => apply k_expectTokens; let H := fresh in intros H; cbn in H; repeat destruct H as [H|H]; try discriminate H; try exact H
  | |- keeps expectIdentifier => apply k_expectIdentifier
  | |- keeps (maybeIdentifier _) => apply k_maybeIdentifier
  | |- keeps (expectInteger _ _) => apply k_expectInteger
  | |- keeps (adjust _) => apply k_adjust
  | |- keeps (aloop _ _ _) => apply k_loop; intros ?
  | |- keeps (if ?b then _ else _) => first [apply k_if | destruct b]
  | |- keeps (match ?x with _ => _ end) => destruct x
  | |- keeps (let _ := _ in _) => cbv zeta
  | |- keeps _ => solve [auto with keeps nocore]
  end; cbv beta iota.
Ltac ks := repeat k1.

Lemma k_parseSchemaName : keeps parseSchemaName. Proof. unfold parseSchemaName. ks. Qed.
Lemma k_parseTableName : keeps parseTableName. Proof. unfold parseTableName. ks. Qed.
#[global] Hint Resolve k_parseSchemaName k_parseTableName : keeps.
Lemma k_parseAlias b : keeps (parseAlias b).
Proof.
  unfold parseAlias. ks. intros past Q G HQ. apply qp_bind, q_scan; [apply G|]. intros t.
  destruct t; destruct b; cbn; try (split; [discriminate|apply G]); apply HQ; gd.
Qed.
#[global] Hint Resolve k_parseAlias : keeps.
Lemma k_parseTableAlias : keeps parseTableAlias. Proof. unfold parseTableAlias. ks. Qed.
Lemma k_parseColumns n : keeps (parseColumns n). Proof. unfold parseColumns. ks. Qed.
#[global] Hint Resolve k_parseTableAlias k_parseColumns : keeps.
Lemma k_parseColumnAliases n : keeps (parseColumnAliases n). Proof. unfold parseColumnAliases. ks. Qed.
Lemma k_parseDistinctColumns n : keeps (parseDistinctColumns n). Proof. unfold parseDistinctColumns. ks. Qed.
Lemma k_parseKey n b : keeps (parseKey n b). Proof. unfold parseKey. ks. Qed.
Lemma k_parseRefAction : keeps parseRefAction. Proof. unfold parseRefAction. ks. Qed.
#[global] Hint Resolve k_parseColumnAliases k_parseDistinctColumns k_parseKey k_parseRefAction : keeps.
Lemma k_parseOnActions n fk : keeps (parseOnActions n fk). Proof. unfold parseOnActions. ks. Qed.
#[global] Hint Resolve k_parseOnActions : keeps.
Lemma k_parseForeignKey n cn : keeps (parseForeignKey n cn). Proof. unfold parseForeignKey. ks. Qed.
Lemma k_parseColumnType : keeps parseColumnType. Proof. unfold parseColumnType. ks. Qed.
Lemma k_columnNames cols : keeps (columnNames cols). Proof. induction cols; cbn [columnNames]; ks. Qed.
Lemma k_parseConstraintName : keeps parseConstraintName. Proof. unfold parseConstraintName. ks. Qed.
Lemma k_checkKeys key csts : keeps (checkKeys key csts). Proof. induction csts; cbn [checkKeys]; ks. Qed.
#[global] Hint Resolve k_parseForeignKey k_parseColumnType k_columnNames k_parseConstraintName k_checkKeys : keeps.
Lemma k_makeKeyConstraintName cn key s : keeps (makeKeyConstraintName cn key s). Proof. unfold makeKeyConstraintName. ks. Qed.
Lemma k_addKeyConstraint s ct cn key : keeps (addKeyConstraint s ct cn key). Proof. unfold addKeyConstraint. ks. Qed.
Lemma k_addColumnConstraint s ct cn num : keeps (addColumnConstraint s ct cn num). Proof. unfold addColumnConstraint. ks. Qed.
Lemma k_parseShowFromTable : keeps parseShowFromTable. Proof. unfold parseShowFromTable. ks. Qed.
#[global] Hint Resolve k_makeKeyConstraintName k_addKeyConstraint k_addColumnConstraint k_parseShowFromTable : keeps.

Lemma k_scanned {A} (h : tok -> act A) :
  (forall t past (Q : list tok -> A -> Prop), good past -> (forall p a, good p -> Q p a) -> qp (t :: past) (h t) Q) -> keeps (let+ t := scan_ in h t).
Proof. intros H past Q G HQ. apply qp_bind, q_scan; [apply G|]. intros t. now apply H. Qed.
Lemma q_keeps {A} (g : act A) past (Q : list tok -> A -> Prop) : keeps g -> good past -> (forall p a, good p -> Q p a) -> qp past g Q.
Proof. intros H. now apply H. Qed.
Lemma q_error {A} t past (Q : list tok -> A -> Prop) : good past -> qp (t :: past) AError Q.
Proof. intros G. split; [discriminate|apply G]. Qed.
Lemma q_back {A} t past (g : act A) (Q : list tok -> A -> Prop) : keeps g -> good past -> (forall p a, good p -> Q p a) -> qp (t :: past) (unscan_ ;+ g) Q.
Proof. intros H G HQ. apply qp_bind. cbn. now apply H. Qed.

Lemma k_optionalBinaryOp : keeps optionalBinaryOp.
Proof.
  apply k_scanned. intros t past Q G HQ. destruct (binaryOps (rune_of t)) eqn:E.
  - apply HQ. apply good_cons; [|exact G]. intros ->. discriminate.
  - destruct (is_reserved t [kAND]) eqn:E1; [apply HQ; apply good_cons; [intros ->; discriminate|exact G]|].
    destruct (is_reserved t [kOR]) eqn:E2; [apply HQ; apply good_cons; [intros ->; discriminate|exact G]|]. apply q_back; [apply k_ret|exact G|exact HQ].
Qed.
Lemma k_parseShow : keeps parseShow.
Proof.
  apply k_scanned. intros t past Q G HQ. destruct t; try (now apply q_error); (apply q_keeps; [ks|gd|exact HQ]).
Qed.
#[global] Hint Resolve k_optionalBinaryOp k_parseShow : keeps.

Section Nested.
  Variable n : nat.
  Variable subExpr : unit -> act expr.
  Variable fromItem : unit -> act fromitem.
  Hypothesis HE : keeps (subExpr tt).
  Hypothesis HF : keeps (fromItem tt).
  Hint Resolve HE HF : keeps.

  Lemma k_parseExpr_ : keeps (parseExpr_ subExpr). Proof. unfold parseExpr_. ks. Qed.
  Hint Resolve k_parseExpr_ : keeps.
  Lemma k_parseValues_ : keeps (parseValues_ n subExpr). Proof. unfold parseValues_. ks. Qed.
  Lemma k_parseFromList_ : keeps (parseFromList_ n fromItem). Proof. unfold parseFromList_. ks. Qed.
  Lemma k_parseResults_ : keeps (parseResults_ n subExpr).
  Proof.
    unfold parseResults_. apply k_loop. intros results. cbv zeta. apply k_scanned. intros t past Q G HQ.
    destruct t; try (apply q_back; [ks|exact G|exact HQ]). apply qp_bind. apply q_maybeToken; [now apply (good_cons (KIdent id)); [discriminate|]| |].
    - intros t E. cbv beta iota. assert (G1 : good (t :: KIdent id :: past)) by (apply good_cons; [eapply not_end; [|exact E]; discriminate|gd]). apply qp_bind. apply q_maybeToken; [apply G1| |].
      + intros t2 E2. cbv beta iota. apply q_keeps; [ks|apply good_cons; [eapply not_end; [|exact E2]; discriminate|gd]|exact HQ].
      + cbv beta iota. apply qp_bind. cbn [qp unscan_]. apply q_back; [ks|exact G|exact HQ].
    - cbv beta iota. apply q_back; [ks|exact G|exact HQ].
  Qed.
  Lemma k_parseGroupBy_ : keeps (parseGroupBy_ n subExpr). Proof. unfold parseGroupBy_. ks. Qed.
  Lemma k_parseOrderBy_ : keeps (parseOrderBy_ n). Proof. unfold parseOrderBy_. ks. Qed.
  Lemma k_optionalExpr_ kw : keeps (optionalExpr_ subExpr kw). Proof. unfold optionalExpr_. ks. Qed.
  Hint Resolve k_parseValues_ k_parseFromList_ k_parseResults_ k_parseGroupBy_ k_parseOrderBy_ k_optionalExpr_ : keeps.
  Lemma k_parseSelect_ : keeps (parseSelect_ n subExpr fromItem). Proof. unfold parseSelect_. ks. Qed.
  Hint Resolve k_parseSelect_ : keeps.
  Lemma k_optionalSubquery_ : keeps (optionalSubquery_ n subExpr fromItem). Proof. unfold optionalSubquery_. ks. Qed.
  Hint Resolve k_optionalSubquery_ : keeps.
  Lemma k_parseSubquery_ : keeps (parseSubquery_ n subExpr fromItem). Proof. unfold parseSubquery_. ks. Qed.
  Lemma k_parseCall_ id : keeps (parseCall_ n subExpr id). Proof. unfold parseCall_. ks. Qed.
  Lemma k_parseRef_ : keeps (parseRef_ n). Proof. unfold parseRef_. ks. Qed.
  Hint Resolve k_parseSubquery_ k_parseCall_ k_parseRef_ : keeps.
  Lemma k_close e : keeps (let+ t := scan_ in if rune_of t =? tRParen then ARet e else @errorGot expr).
  Proof.
    apply k_scanned. intros t past Q G HQ. destruct (Z.eqb_spec (rune_of t) tRParen) as [E|E]; [|apply q_got, G].
    apply HQ. apply good_cons; [eapply not_end; [|exact E]; discriminate|exact G].
  Qed.
  Hint Resolve k_close : keeps.
  Lemma k_parseOperand_ : keeps (parseOperand_ n subExpr fromItem).
  Proof.
    apply k_scanned. intros t past Q G HQ. destruct t; cbn [rune_of]; try (apply q_got, G); try (apply HQ; gd).
    - apply q_keeps; [ks|gd|exact HQ].
    - apply q_keeps; [ks|gd|exact HQ].
    - destruct (r =? tMinus); [apply q_keeps; [ks|gd|exact HQ]|]. destruct (r =? tLParen); [|apply q_got, G].
      apply q_keeps; [|gd|exact HQ]. apply k_bind; [ks|]. intros o. apply k_bind; [ks|]. intros e. apply k_close.
  Qed.
  Lemma k_parsePostfix_ e : keeps (parsePostfix_ n subExpr fromItem e).
  Proof.
    unfold parsePostfix_. intros past Q G HQ. apply qp_bind. apply q_optionalReserved; [apply G| |apply HQ; exact G].
    intros id I. cbv beta iota. apply qp_bind. cbn [tok_ qp ident_of]. destruct (id =? kIN); [apply q_keeps; [ks|gd|exact HQ]|].
    destruct (id =? kNOT).
    - apply qp_bind. apply q_optionalReserved; [apply good_cons; [discriminate|exact G]| |].
      + intros id2 I2. cbv beta iota. apply q_keeps; [ks|gd|exact HQ].
      + cbv beta iota. apply q_back; [ks|exact G|exact HQ].
    - apply q_keeps; [ks|gd|exact HQ].
  Qed.
  Hint Resolve k_parseOperand_ k_parsePostfix_ : keeps.
  Lemma k_subExprBody : keeps (subExprBody n subExpr fromItem). Proof. unfold subExprBody. ks. Qed.
  Lemma k_parseFromStmt_ s : keeps (parseFromStmt_ n s). Proof. unfold parseFromStmt_. ks. Qed.
  Lemma k_parseJoinType_ : keeps parseJoinType_. Proof. unfold parseJoinType_. cbv zeta. ks. Qed.
  Hint Resolve k_parseFromStmt_ k_parseJoinType_ : keeps.
  Lemma k_fromItemBody : keeps (fromItemBody n subExpr fromItem).
  Proof.
    unfold fromItemBody. ks.
  Qed.
End Nested.

Lemma k_nested n : keeps (parseSubExpr n tt) /\ keeps (parseFromItem n tt).
Proof.
  induction n as [|n [IH1 IH2]]; cbn [parseSubExpr parseFromItem]; [split; apply k_fuel|]. split; [now apply k_subExprBody|now apply k_fromItemBody].
Qed.
Lemma k_parseExpr n : keeps (parseExpr n). Proof. apply k_parseExpr_, k_nested. Qed.
Lemma k_parseSelect n : keeps (parseSelect n). Proof. apply k_parseSelect_; apply k_nested. Qed.
Lemma k_parseValues n : keeps (parseValues n). Proof. apply k_parseValues_, k_nested. Qed.
Lemma k_optionalExpr n kw : keeps (optionalExpr_ (parseSubExpr n) kw). Proof. apply k_optionalExpr_, k_nested. Qed.
#[global] Hint Resolve k_parseExpr k_parseSelect k_parseValues k_optionalExpr : keeps.

Lemma k_columnConstraint n nam st : keeps (columnConstraint n nam st). Proof. unfold columnConstraint. ks. Qed.
#[global] Hint Resolve k_columnConstraint : keeps.
Lemma k_parseColumn n s : keeps (parseColumn n s). Proof. unfold parseColumn. ks. Qed.
#[global] Hint Resolve k_parseColumn : keeps.
Lemma k_createDetail n s : keeps (createDetail n s). Proof. unfold createDetail. ks. Qed.
#[global] Hint Resolve k_createDetail : keeps.
Lemma k_parseCreateDetails n : keeps (parseCreateDetails n). Proof. unfold parseCreateDetails. ks. Qed.
Lemma k_ifNotExists : keeps ifNotExists. Proof. unfold ifNotExists. ks. Qed.
Lemma k_ifExists : keeps ifExists. Proof. unfold ifExists. ks. Qed.
Lemma k_alterAction n : keeps (alterAction n). Proof. unfold alterAction. ks; unfold ifExists; ks. Qed.
#[global] Hint Resolve k_parseCreateDetails k_ifNotExists k_ifExists k_alterAction : keeps.
Lemma k_parseCreateTable n : keeps (parseCreateTable n). Proof. unfold parseCreateTable. ks. Qed.
Lemma k_parseAlterTable n : keeps (parseAlterTable n). Proof. unfold parseAlterTable. ks. Qed.
Lemma k_parseCreateIndex n b : keeps (parseCreateIndex n b). Proof. unfold parseCreateIndex. ks. Qed.
Lemma k_parseDelete n : keeps (parseDelete n). Proof. unfold parseDelete. ks. Qed.
Lemma k_parseDropTable n : keeps (parseDropTable n). Proof. unfold parseDropTable. ks. Qed.
Lemma k_parseDropIndex : keeps parseDropIndex. Proof. unfold parseDropIndex. ks. Qed.
Lemma k_exprOrDefault n : keeps (exprOrDefault n).
Proof.
  apply k_scanned. intros t past Q G HQ. destruct (is_reserved t [kDEFAULT]) eqn:E; [apply HQ; apply good_cons; [intros ->; discriminate|exact G]|].
  apply q_back; [ks|exact G|exact HQ].
Qed.
#[global] Hint Resolve k_parseCreateTable k_parseAlterTable k_parseCreateIndex k_parseDelete k_parseDropTable k_parseDropIndex k_exprOrDefault : keeps.
Lemma k_parseInsert n : keeps (parseInsert n). Proof. unfold parseInsert. ks. Qed.
Lemma k_delim : keeps (let+ t := scan_ in match t with KString [c] => ARet (bz c) | _ => AError end).
Proof.
  apply k_scanned. intros t past Q G HQ. destruct t; try (now apply q_error). destruct s as [|c [|c' s]]; try (now apply q_error). apply HQ. gd.
Qed.
#[global] Hint Resolve k_parseInsert k_delim : keeps.
Lemma k_parseCopy n : keeps (parseCopy n).
Proof. unfold parseCopy. ks; apply k_delim. Qed.
Lemma k_parseUpdate n : keeps (parseUpdate n). Proof. unfold parseUpdate. ks. Qed.
#[global] Hint Resolve k_parseCopy k_parseUpdate : keeps.

Section Lib.
  Context {X : FloatLib} {P : PrintLib}.
  Lemma k_parseOptions n : keeps (parseOptions n).
  Proof.
    unfold parseOptions. apply k_loop. intros options. apply k_scanned. intros t past Q G HQ. destruct t; try (apply q_back; [ks|exact G|exact HQ]).
    apply q_keeps; [|gd|exact HQ]. k1; [ks|]. apply k_scanned. intros t past' Q' G' HQ'. apply qp_bind.
    destruct t; try (now apply q_error); (apply q_keeps; [ks|gd|]; intros; apply HQ'; assumption).
  Qed.
  Hint Resolve k_parseOptions : keeps.
  Lemma k_parseCreateDatabase n : keeps (parseCreateDatabase n). Proof. unfold parseCreateDatabase. ks. Qed.
  Lemma k_literalText e : keeps (literalText e).
  Proof. unfold literalText. destruct e as [v| | | | |]; ks. intros past Q G HQ b. now apply HQ. Qed.
  Hint Resolve k_parseCreateDatabase k_literalText : keeps.
  Lemma k_parseSet n : keeps (parseSet n). Proof. unfold parseSet. ks. Qed.
  Lemma k_parseUse n : keeps (parseUse n). Proof. unfold parseUse. ks. Qed.
  Lemma k_parseDropDatabase : keeps parseDropDatabase. Proof. unfold parseDropDatabase. ks. Qed.
  Lemma k_parseCreateSchema : keeps parseCreateSchema. Proof. unfold parseCreateSchema. ks. Qed.
  Lemma k_parseDropSchema : keeps parseDropSchema. Proof. unfold parseDropSchema. ks. Qed.
  Lemma k_parseExplain n : keeps (parseExplain n). Proof. unfold parseExplain. ks. Qed.
  Hint Resolve k_parseSet k_parseUse k_parseDropDatabase k_parseCreateSchema k_parseDropSchema k_parseExplain : keeps.
  Lemma k_parseStmtOf n kw : keeps (parseStmtOf n kw).
  Proof. unfold parseStmtOf. cbv zeta. ks. Qed.

  (** A whole statement: it ends at the first semicolon behind its first token. *)
  Lemma q_parseWhole n : qp [] (parseWhole n) (fun p _ => exists t q, p = t :: q /\ (t = KEnd \/ t = KEOF) /\ good q).
  Proof.
    assert (E : forall (s : option stmt) q, good q -> qp q (expectEndOfStatement ;+ ARet s) (fun p _ => exists t q, p = t :: q /\ (t = KEnd \/ t = KEOF) /\ good q)).
    { intros s q G. apply qp_bind. unfold expectEndOfStatement. apply qp_bind, q_scan; [apply G|]. intros t. destruct t; try (apply q_got, G); cbn [qp]; eauto 8. }
    unfold parseWhole, parseStmt. apply qp_bind. apply qp_bind. apply q_maybeToken; [apply noend_nil| |].
    - intros t Et. cbn [qp]. apply E. apply good_one.
    - apply qp_bind. apply q_expectReserved; [apply noend_nil|]. intros id _. apply k_parseStmtOf; [apply good_one|]. intros p a G. now apply E.
  Qed.
End Lib.

(** What this means for the tape. *)
Section Run.
  Context {X : FloatLib} {L : CaseLib} {U : RuneLib} {B : BufLib} {P : PrintLib}.

  Lemma t_next_past t t' e : t_next t = Some (t', e) -> exists c, t_past t' = c :: t_past t.
  Proof.
    unfold t_next. destruct (t_ahead t) as [|c ahead].
    - destruct (Scan _ _) as [[s c]|]; [|discriminate]. intros [= <- _]. now exists c.
    - intros [= <- _]. now exists c.
  Qed.

  Lemma qp_run {A} (base : list sctx) (g : act A) : forall t cs (Q : list tok -> A -> Prop),
    t_past t = cs ++ base -> qp (map tok_of cs) g Q ->
    match t_run g t with
    | Done a t' => exists cs', t_past t' = cs' ++ base /\ Q (map tok_of cs') a
    | Failed t' => exists cs', t_past t' = cs' ++ base /\ cs' <> [] /\ noend (tl (map tok_of cs'))
    | Crashed _ | Stuck => True
    end.
  Proof.
    induction g as [a| | | |k IH|k IH|k IH|s k IH|i k IH|l k IH|k IH]; intros t cs Q Ep HW; cbn [t_run]; cbn [qp] in HW; auto.
    - eauto.
    - exists cs. split; [exact Ep|]. destruct HW as [H1 H2]. split; [now destruct cs|exact H2].
    - destruct HW as [W1 W2]. destruct (t_next t) as [[t' e]|] eqn:E; [|exact Logic.I]. destruct (t_next_past _ _ _ E) as [c Ec]. rewrite Ep in Ec. destruct e.
      + exists (c :: cs). split; [exact Ec|]. split; [discriminate|exact W1].
      + unfold t_tok. rewrite Ec. cbn [hd app]. apply (IH (tok_of c) t' (c :: cs) Q); [exact Ec|apply W2].
    - destruct cs as [|c cs]; [contradiction|]. unfold t_back. rewrite Ep. cbn [app]. apply (IH _ cs Q); [reflexivity|exact HW].
    - destruct cs as [|c cs]; [contradiction|]. unfold t_tok. rewrite Ep. cbn [app hd]. apply (IH (tok_of c) t (c :: cs) Q); [exact Ep|exact HW].
    - destruct (ID (s_ids (t_scanner t)) s false) as [ids id]. eapply IH; [exact Ep|apply HW].
    - eapply IH; [exact Ep|apply HW].
    - eapply IH; [exact Ep|apply HW].
    - eapply IH; [exact Ep|apply HW].
  Qed.
End Run.
