(** Concrete statements for the examples of printing, and the refutations. *)

From Verif Require Import ModelPrint SpecPrint SpecIdent LemmasBase LemmasIdent LemmasParserProps LemmasDemo LemmasDemoTyped LemmasDemoEngine LemmasDemoScan LemmasDemoParser LemmasGrammarLink LemmasDemoGrammar LemmasPrint LemmasQuote LemmasDemoPrint.

#[local] Existing Instances demo_X demo_L demo_U demo_B demo_P.

Definition demo_tn (s t : Z) : tablename := {| tn_database := 0; tn_schema := s; tn_table := t |}.
Definition demo_type (t : valtype) (n : Z) (b : bool) : coltype := {| ct_type := t; ct_size := n; ct_fixed := false; ct_notnull := b |}.

(** A query with joins, subqueries and all the clauses. *)
Definition demo_query : stmt :=
  SSelect (Some [ExprResult (Ref [47]) 55; TableResult 53; ExprResult (SExpr 49 [Subquery Scalar AddOp None (SShow 48)]) 0])
    (Some (FromJoin (FromTableAlias (demo_tn 52 53) 56)
             (FromStmt (SValues [[Literal (VInt 1); Literal VNull]; [Literal (VInt 3); Literal (VBool true)]]) 54 [47; 48])
             LeftJoin (Some (BinaryExpr EqualOp (Ref [47]) (Ref [54; 48]))) []))
    (Some (BinaryExpr OrOp (Subquery ModelSql.Exists AddOp None (SSelect None (Some (FromIndexAlias (demo_tn 0 53) 57 0)) None [] None []))
             (Subquery Any EqualOp (Some (Ref [51])) (SValues [[Literal (VInt 5)]]))))
    [Ref [47]] (Some (BinaryExpr GreaterThanOp (Ref [48]) (Literal (VInt (-1))))) [(Ref [47], true); (Ref [48], false)].
Definition demo_query_text : String.string :=
  "SELECT a AS x, t.*, f((SHOW b)) FROM (s.t AS y LEFT JOIN (VALUES (1, NULL), (3, true)) AS u (a, b) ON (a == u.b)) WHERE (EXISTS(SELECT * FROM t@z) OR c == ANY(VALUES (5))) GROUP BY a HAVING (b > -1) ORDER BY a DESC, b ASC".

(** A table with columns, constraints and a foreign key. *)
Definition demo_create : stmt :=
  SCreateTable (demo_tn 52 53) [47; 48; 51] [demo_type Int64Type 4 true; demo_type BoolType 1 false; demo_type BytesType 4294967294 true]
    [None; Some (BinaryExpr OrOp (Literal (VBool true)) (Literal VNull)); None] true
    [{| con_type := PrimaryConstraint; con_name := 55; con_colnum := -1;
        con_key := {| ik_unique := true; ik_columns := [47; 51]; ik_reverse := [false; true] |}; con_check := None |};
     {| con_type := CheckConstraint; con_name := 56; con_colnum := -1; con_key := noKey;
        con_check := Some (BinaryExpr LessThanOp (Ref [47]) (Literal (VInt 7))) |}]
    [{| fk_name := 57; fk_cols := [47]; fk_ref := demo_tn 0 54; fk_refcols := [48]; fk_ondelete := NoAction; fk_onupdate := NoAction |}].
Definition demo_create_text : String.string :=
  "CREATE TABLE IF NOT EXISTS s.t (a INT NOT NULL, b BOOL DEFAULT (true OR NULL), c BYTES NOT NULL, CONSTRAINT x PRIMARY KEY (a ASC, c DESC), CONSTRAINT y CHECK ((a < 7)), CONSTRAINT z FOREIGN KEY (a) REFERENCES u (b))".

Lemma demo_simple_in i : In i [47; 48; 49; 51; 52; 53; 54; 55; 56; 57] -> simple demo_table i.
Proof.
  cbn [In]. intros [<-|[<-|[<-|[<-|[<-|[<-|[<-|[<-|[<-|[<-|[]]]]]]]]]]].
  - exact demo_simple_a. - exact demo_simple_b. - exact demo_simple_f. - demo_simple "c"%byte. - demo_simple "s"%byte. - demo_simple "t"%byte.
  - demo_simple "u"%byte. - demo_simple "x"%byte. - demo_simple "y"%byte. - demo_simple "z"%byte.
Qed.
Ltac demo_name := apply demo_simple_in; cbn [In]; tauto.
Ltac demo_table_ok := unfold plain_table, no_or_simple; cbn [demo_tn tn_database tn_schema tn_table];
  split; [now left|]; split; [first [left; reflexivity|right; demo_name]|]; split; [demo_name|intros ?; reflexivity].
Ltac demo_member := cbn [In]; intuition discriminate.
Ltac demo_pl := repeat first
  [ demo_name | demo_table_ok | left; reflexivity | right; demo_name | apply Forall_nil | apply Forall_cons
  | apply pl_null | apply pl_bool | apply pl_int; lia | apply pl_ref | apply pl_call | apply pl_binary; [demo_member|..]
  | apply pl_scalar | apply pl_exists | apply pl_any; [cbn; tauto|unfold compares; cbn; tauto|..]
  | apply pls_nil | apply pls_cons | apply po_none | apply po_some | apply prs_nil | apply prs_cons; [discriminate|..]
  | apply pr_nil | apply pr_table | apply pr_expr | apply pc_star | apply pc_list; [discriminate|] | apply pq_select | apply pq_values
  | apply pf_table | apply pf_index | apply pf_query | apply pf_on; [discriminate|..] ].

Lemma demo_query_ok : plain_stmt demo_table demo_query.
Proof.
  apply ps_query. unfold demo_query. demo_pl.
  - apply pq_show. left. split; [demo_name|demo_member].
  - reflexivity.
  - reflexivity.
  - discriminate.
  - exists 47. split; [reflexivity|demo_name].
  - exists 48. split; [reflexivity|demo_name].
Qed.
Lemma demo_create_ok : plain_stmt demo_table demo_create.
Proof.
  unfold demo_create. apply ps_create_table.
  - demo_table_ok.
  - demo_pl.
  - repeat (apply NoDup_cons; [demo_member|]). apply NoDup_nil.
  - discriminate.
  - reflexivity.
  - reflexivity.
  - repeat (apply Forall_cons; [split; [reflexivity|cbn [demo_type ct_type ct_size In]; tauto]|]). apply Forall_nil.
  - demo_pl.
  - apply Forall_cons; [|apply Forall_cons; [|apply Forall_nil]]; unfold plain_constraint; cbn [con_type con_name con_colnum con_check con_key]; (split; [demo_name|]; split; [discriminate|]; split; [reflexivity|]).
    + split; [cbn; tauto|]. split; [|reflexivity]. unfold plain_key. cbn [ik_columns ik_reverse]. split; [demo_pl|]. split; [repeat (apply NoDup_cons; [demo_member|]); apply NoDup_nil|]. split; [discriminate|reflexivity].
    + split; [reflexivity|]. split; [reflexivity|]. demo_pl.
  - cbn [no_clash]. split; [|split; [apply Forall_nil|exact Logic.I]]. apply Forall_cons; [|apply Forall_nil]. intros N. now destruct N.
  - apply Forall_cons; [|apply Forall_nil]. unfold plain_foreign. cbn [fk_name fk_cols fk_ref fk_refcols fk_ondelete fk_onupdate].
    split; [demo_name|]. split; [discriminate|]. split; [demo_pl|]. split; [discriminate|]. split; [demo_table_ok|]. split; [demo_pl|]. now split.
Qed.

(** What a parser for a text that starts with the table returns first, but for
    parentheses, and whether that was all of the text. *)
Definition demo_read_stmt (p : parser) : option (stmt * bool) :=
  match Parse p with PStmt (Some s) p' => Some (strip_stmt s, match rest (p_scanner p') with [] => negb (p_failed p') | _ => false end) | _ => None end.

(** A statement that a parser returns for a text, and that is not read back from
    what is printed for it. *)
Definition demo_lost (text : String.string) : Prop :=
  exists s p', Parse (demo_reader demo_table (runes text)) = PStmt (Some s) p' /\ ~ returns_stmt (s_ids (p_scanner p')) s.

Lemma demo_stmt_not_returned T s text r : Forall scalar text -> real T -> stmtString T s = PText (encode text) ->
  demo_read_stmt (demo_reader T text) = r -> r <> Some (strip_stmt s, true) -> ~ returns_stmt T s.
Proof.
  intros S R E D N (text' & E' & S' & K). rewrite E in E'. injection E' as E'. apply encode_injective in E'; [|assumption..]. subst text'.
  destruct (K text (demo_reader T text)) as (s' & p' & H1 & H2 & H3 & H4); [|reflexivity|reflexivity|reflexivity|exact R|apply grown_later; [exact R|now apply grown_refl]|].
  - constructor. eapply Forall_impl; [|exact S]. intros y [H _]. exact H.
  - apply N. rewrite <- D. unfold demo_read_stmt. rewrite H1, H2, H3, H4. reflexivity.
Qed.

(** The statement and the table behind it. *)
Definition demo_result (o : parsed) : option (stmt * idtable) :=
  match o with PStmt (Some s) p' => Some (s, s_ids (p_scanner p')) | _ => None end.
Definition demo_first (text : String.string) : option (stmt * idtable) := demo_result (Parse (demo_reader demo_table (runes text))).
Lemma demo_result_inv o s T : demo_result o = Some (s, T) -> exists p', o = PStmt (Some s) p' /\ s_ids (p_scanner p') = T.
Proof. destruct o as [[s'|] p'| | | |]; try discriminate. intros E. injection E as -> <-. now exists p'. Qed.
Lemma demo_lost_intro text s : demo_first text = Some (s, demo_table) -> ~ returns_stmt demo_table s -> demo_lost text.
Proof. intros E N. apply demo_result_inv in E. destruct E as (p' & E1 & E2). exists s, p'. split; [exact E1|]. rewrite E2. exact N. Qed.
Lemma demo_lost_text text s printed r : demo_first text = Some (s, demo_table) -> stmtString demo_table s = PText (encode (runes printed)) ->
  demo_read_stmt (demo_reader demo_table (runes printed)) = r -> r <> Some (strip_stmt s, true) -> demo_lost text.
Proof.
  intros E1 E2 E3 N. apply (demo_lost_intro _ s E1). eapply demo_stmt_not_returned; [apply demo_scalar|apply demo_table_real|eassumption..].
Qed.
Lemma demo_lost_panic text s t : demo_first text = Some (s, demo_table) -> stmtString demo_table s = PPanic t -> demo_lost text.
Proof. intros E1 E2. apply (demo_lost_intro _ s E1). intros (text' & E & _). rewrite E2 in E. discriminate. Qed.

Ltac demo_gone printed := eapply (demo_lost_text _ _ printed); [vm_compute; reflexivity|vm_compute; reflexivity|vm_compute; reflexivity|discriminate].

Definition demo_losses : list String.string :=
  ["SET a TO 'b c'";
   "CREATE TABLE t (a TEXT)";
   "CREATE TABLE t (a SMALLINT)";
   "CREATE TABLE t (a INT CONSTRAINT x NOT NULL)";
   "CREATE TABLE t (a INT, CHECK (a > 1))";
   "CREATE DATABASE a WITH b = 'c f'";
   "ALTER TABLE t ADD FOREIGN KEY (a) REFERENCES u";
   "ALTER TABLE t ADD CONSTRAINT x FOREIGN KEY (a) REFERENCES u ON DELETE CASCADE";
   "ALTER TABLE t DROP CONSTRAINT """"";
   "COPY t FROM STDIN";
   "DELETE FROM ""a b""";
   "DELETE FROM t WHERE (a = ANY (SELECT b FROM u)) = c";
   "INSERT INTO t VALUES (DEFAULT)";
   "UPDATE t SET a = DEFAULT";
   "SELECT a";
   "SELECT a FROM t HAVING a";
   "EXPLAIN VERBOSE SELECT a FROM t"]%string.
Lemma demo_losses_ok : Forall demo_lost demo_losses.
Proof.
  unfold demo_losses. repeat apply Forall_cons; try apply Forall_nil.
  - demo_gone "SET a TO b c"%string.
  - demo_gone "CREATE TABLE t (a STRING)"%string.
  - demo_gone "CREATE TABLE t (a INT)"%string.
  - demo_gone "CREATE TABLE t (a INT NOT NULL)"%string.
  - demo_gone "CREATE TABLE t (a INT, CONSTRAINT  CHECK ((a > 1)))"%string.
  - demo_gone "CREATE DATABASE a WITH b = c f"%string.
  - demo_gone "ALTER TABLE t ADD CONSTRAINT FOREIGN KEY (a) REFERENCES u"%string.
  - demo_gone "ALTER TABLE t ADD CONSTRAINT x FOREIGN KEY (a) REFERENCES u"%string.
  - demo_gone "ALTER TABLE t ALTER COLUMN  DROP %!s(PANIC=String method: unexpected constraint type: 0)"%string.
  - demo_gone "COPY t () FROM STDIN"%string.
  - demo_gone "DELETE FROM a b"%string.
  - demo_gone "DELETE FROM t WHERE (a == ANY(SELECT b FROM u) == c)"%string.
  - eapply (demo_lost_panic _ (SInsertValues (demo_tn 0 53) [] [[None]]) nil_interface); [vm_compute; reflexivity|reflexivity].
  - demo_gone "UPDATE t SET a = %!s(<nil>)"%string.
  - demo_gone "SELECT a FROM %!s(<nil>)"%string.
  - demo_gone "SELECT a FROM t"%string.
  - demo_gone "EXPLAIN SELECT a FROM t"%string.
Qed.

Lemma demo_reader_real T text : real T -> real (s_ids (p_scanner (demo_reader T text))).
Proof. intros R. exact R. Qed.
Lemma demo_reader_parsing T text : parsing (runes text) (demo_reader T (runes text)).
Proof. apply ps_start, demo_runes. Qed.
Lemma demo_statements_lost : ~ (forall (X : FloatLib) (L : CaseLib) (U : RuneLib) (B : BufLib) (P : PrintLib), RuneLib_scan U -> CaseLib_ok L ->
  forall input p s p', parsing input p -> real (s_ids (p_scanner p)) -> Parse p = PStmt (Some s) p' -> returns_stmt (s_ids (p_scanner p')) s).
Proof.
  intros H. destruct (Forall_inv demo_losses_ok) as (s & p' & E & N). apply N.
  exact (H demo_X demo_L demo_U demo_B demo_P demo_U_scan CaseLib_ascii_ok _ _ _ _ (demo_reader_parsing demo_table _) (demo_reader_real demo_table _ demo_table_real) E).
Qed.
