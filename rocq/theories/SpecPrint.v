(** Printing expressions and statements and reading them back. *)

From Verif Require Export ModelPrint SpecIdent SpecTokens.

(** The runes that UTF-8 encodes. *)
Definition scalar (r : Z) : Prop := 0 <= r <= 1114111 /\ ~ 55296 <= r <= 57343.

(** The expression, statement or from item without the parentheses around
    expressions. *)
Fixpoint strip (e : expr) : expr :=
  match e with
  | UnaryExpr NoOp x => strip x
  | UnaryExpr op x => UnaryExpr op (strip x)
  | BinaryExpr op l r => BinaryExpr op (strip l) (strip r)
  | SExpr name args => SExpr name (map strip args)
  | Subquery op eop e s => Subquery op eop (option_map strip e) (strip_stmt s)
  | Literal _ | Ref _ => e
  end
with strip_stmt (s : stmt) : stmt :=
  match s with
  | SExplain s v => SExplain (strip_stmt s) v
  | SCreateTable tn cols types defaults b csts fks =>
      SCreateTable tn cols types (map (option_map strip) defaults) b
        (map (fun c => {| con_type := con_type c; con_name := con_name c; con_colnum := con_colnum c;
                          con_key := con_key c; con_check := option_map strip (con_check c) |}) csts)
        fks
  | SDelete tn w => SDelete tn (option_map strip w)
  | SInsertValues tn cols rows => SInsertValues tn cols (map (map (option_map strip)) rows)
  | SUpdate tn u w => SUpdate tn (map (fun p => (fst p, option_map strip (snd p))) u) (option_map strip w)
  | SValues rows => SValues (map (map strip) rows)
  | SSelect r f w g h o =>
      SSelect
        (option_map (map (fun r => match r with
                                   | TableResult t => TableResult t
                                   | ExprResult e a => ExprResult (strip e) a
                                   end)) r)
        (option_map strip_from f) (option_map strip w) (map strip g) (option_map strip h)
        (map (fun p => (strip (fst p), snd p)) o)
  | _ => s
  end
with strip_from (f : fromitem) : fromitem :=
  match f with
  | FromStmt s a c => FromStmt (strip_stmt s) a c
  | FromJoin l r jt on c => FromJoin (strip_from l) (strip_from r) jt (option_map strip on) c
  | _ => f
  end.

Section Plain.
  Context {X : FloatLib} {L : CaseLib} {U : RuneLib} {P : PrintLib}.

  (** The text of the identifier is a word that may be written without quotes, and
      that is this identifier. *)
  Definition simple (T : idtable) (i : Z) : Prop :=
    0 <= i /\ ID T (idString T i) false = (T, i) /\
    exists r w, idString T i = encode (r :: w) /\ name_start r /\ Forall name_rune w /\ Forall scalar (r :: w).

  (** Zero, which stands for none, or simple. *)
  Definition no_or_simple (T : idtable) (i : Z) : Prop := i = 0 \/ simple T i.

  (** Names, where a database goes with a schema. *)
  Definition plain_table (T : idtable) (tn : tablename) : Prop :=
    no_or_simple T (tn_database tn) /\ no_or_simple T (tn_schema tn) /\ simple T (tn_table tn) /\
    (tn_schema tn = 0 -> tn_database tn = 0).
  Definition plain_schema (T : idtable) (sn : schemaname) : Prop :=
    no_or_simple T (sn_database sn) /\ simple T (sn_schema sn).

  (** The variables of SHOW that are not a query of the metadata. *)
  Definition plain_variable (T : idtable) (i : Z) : Prop :=
    simple T i /\ ~ In i [iCOLUMNS; iCONSTRAINTS; iCONFIG; iDATABASES; iSCHEMAS; iTABLES] \/ In i [kDATABASE; kSCHEMA].

  (** The operators that ANY and ALL may follow. *)
  Definition compares (op : sqlop) : Prop :=
    In op [EqualOp; NotEqualOp; GreaterThanOp; GreaterEqualOp; LessThanOp; LessEqualOp; AndOp; OrOp].

  (** The text of the float is digits, a dot and digits, perhaps behind a minus, and
      is the text of this float. *)
  Definition plain_float (p : Z) : Prop :=
    exists (minus : bool) w v q, x_print_float p = encode ((if minus then [45] else []) ++ w ++ [46] ++ v) /\
      w <> [] /\ Forall (fun r => 48 <= r <= 57) w /\ Forall (fun r => 48 <= r <= 57) v /\
      x_parse_float (encode (w ++ [46] ++ v)) = Some q /\ p = if minus then f_neg q else q.

  (** The expressions, queries and from items that are read back.

      Expressions: over integers (but the least), floats that are written with a dot
      and without an exponent, booleans, NULL, text without a quote in it, simple
      names, calls, operators and subqueries of plain queries; [plain T true e]:
      also where an operator follows, as none may follow ANY and ALL.

      Queries: SELECT with something behind FROM, with HAVING only if there is
      GROUP BY, ordered by columns; VALUES with rows of equal length; SHOW of a
      variable. *)
  Inductive plain (T : idtable) : bool -> expr -> Prop :=
  | pl_null b : plain T b (Literal VNull)
  | pl_bool b v : plain T b (Literal (VBool v))
  | pl_int b i : - 2 ^ 63 < i < 2 ^ 63 -> plain T b (Literal (VInt i))
  | pl_float b p : plain_float p -> plain T b (Literal (VFloat p))
  | pl_string b w : Forall scalar w -> ~ In 39 w -> plain T b (Literal (VString (encode w)))
  | pl_ref b i l : Forall (simple T) (i :: l) -> plain T b (Ref (i :: l))
  | pl_call b f args : simple T f -> plains T args -> plain T b (SExpr f args)
  | pl_parens b e : plain T b e -> plain T b (UnaryExpr NoOp e)
  | pl_unary b op e : In op [NotOp; NegateOp] -> plain T false e -> plain T b (UnaryExpr op e)
  | pl_binary b op l r : ~ In op [NoOp; NotOp; NegateOp] -> plain T true l -> plain T false r ->
      plain T b (BinaryExpr op l r)
  | pl_scalar b s : plain_query T s -> plain T b (Subquery Scalar AddOp None s)
  | pl_exists b s : plain_query T s -> plain T b (Subquery ModelSql.Exists AddOp None s)
  | pl_any op eop e s : In op [Any; All] -> compares eop -> plain T true e -> plain_query T s ->
      plain T false (Subquery op eop (Some e) s)
  with plains (T : idtable) : list expr -> Prop :=
  | pls_nil : plains T []
  | pls_cons e l : plain T false e -> plains T l -> plains T (e :: l)
  with plain_opt (T : idtable) : option expr -> Prop :=
  | po_none : plain_opt T None
  | po_some e : plain T false e -> plain_opt T (Some e)
  with plain_rows (T : idtable) : list (list expr) -> Prop :=
  | prs_nil : plain_rows T []
  | prs_cons l ls : l <> [] -> plains T l -> plain_rows T ls -> plain_rows T (l :: ls)
  with plain_results (T : idtable) : list (selectresult expr) -> Prop :=
  | pr_nil : plain_results T []
  | pr_table t l : simple T t -> plain_results T l -> plain_results T (TableResult t :: l)
  | pr_expr e a l : plain T false e -> no_or_simple T a -> plain_results T l -> plain_results T (ExprResult e a :: l)
  with plain_columns (T : idtable) : option (list (selectresult expr)) -> Prop :=
  | pc_star : plain_columns T None
  | pc_list l : l <> [] -> plain_results T l -> plain_columns T (Some l)
  with plain_query (T : idtable) : stmt -> Prop :=
  | pq_select r f w g h o : plain_columns T r -> plain_from T f -> plain_opt T w -> plains T g -> plain_opt T h ->
      (g = [] -> h = None) -> Forall (fun p => exists i, fst p = Ref [i] /\ simple T i) o ->
      plain_query T (SSelect r (Some f) w g h o)
  | pq_values l ls : plain_rows T (l :: ls) -> Forall (fun l' => length l' = length l) ls ->
      plain_query T (SValues (l :: ls))
  | pq_show i : plain_variable T i -> plain_query T (SShow i)
  with plain_from (T : idtable) : fromitem -> Prop :=
  | pf_table tn a : plain_table T tn -> no_or_simple T a -> plain_from T (FromTableAlias tn a)
  | pf_index tn i a : plain_table T tn -> simple T i -> no_or_simple T a -> plain_from T (FromIndexAlias tn i a)
  | pf_query s a cols : plain_query T s -> simple T a -> Forall (simple T) cols -> plain_from T (FromStmt s a cols)
  | pf_cross l r : plain_from T l -> plain_from T r -> plain_from T (FromJoin l r CrossJoin None [])
  | pf_on l r jt e : jt <> CrossJoin -> plain_from T l -> plain_from T r -> plain T false e ->
      plain_from T (FromJoin l r jt (Some e) [])
  | pf_using l r jt cols : jt <> CrossJoin -> plain_from T l -> plain_from T r -> Forall (simple T) cols -> NoDup cols ->
      cols <> [] -> plain_from T (FromJoin l r jt None cols).

  (** The types of columns that are read back. *)
  Definition plain_type (ct : coltype) : Prop :=
    ct_fixed ct = false /\
    In (ct_type ct, ct_size ct) [(BytesType, 4294967294); (BoolType, 1); (Float64Type, 8); (Int64Type, 4)].
  Definition plain_key (T : idtable) (key : indexkey) : Prop :=
    Forall (simple T) (ik_columns key) /\ NoDup (ik_columns key) /\ ik_columns key <> [] /\
    length (ik_reverse key) = length (ik_columns key).
  (** Foreign keys and constraints that have a name; those that are not of a
      column. *)
  Definition plain_foreign (T : idtable) (fk : foreignkey) : Prop :=
    simple T (fk_name fk) /\ fk_name fk <> 0 /\ Forall (simple T) (fk_cols fk) /\ fk_cols fk <> [] /\
    plain_table T (fk_ref fk) /\ Forall (simple T) (fk_refcols fk) /\
    fk_ondelete fk = NoAction /\ fk_onupdate fk = NoAction.
  Definition plain_constraint (T : idtable) (c : constraint expr) : Prop :=
    simple T (con_name c) /\ con_name c <> 0 /\ con_colnum c = -1 /\
    match con_check c with
    | None => In (con_type c) [PrimaryConstraint; UniqueConstraint] /\ plain_key T (con_key c) /\ ik_unique (con_key c) = true
    | Some e => con_type c = CheckConstraint /\ con_key c = noKey /\ plain T false e
    end.
  (** A key has a name and columns of its own, and there is one primary key. *)
  Fixpoint no_clash (csts : list (constraint expr)) : Prop :=
    match csts with
    | [] => True
    | c :: l =>
        Forall (fun c' => con_type c' <> CheckConstraint ->
          con_name c <> con_name c' /\ ~ (con_type c = PrimaryConstraint /\ con_type c' = PrimaryConstraint) /\
          (ik_columns (con_key c) <> ik_columns (con_key c') \/ ik_reverse (con_key c) <> ik_reverse (con_key c'))) l /\
        no_clash l
    end.
  Definition plain_action (T : idtable) (a : alteraction) : Prop :=
    match a with
    | AddForeignKey fk => plain_foreign T fk
    | DropConstraint i _ => simple T i /\ i <> 0
    | DropColumnConstraint c ct => simple T c /\ In ct [DefaultConstraint; NotNullConstraint]
    end.
  (** The values of options, which are printed as they are: a name or a number. *)
  Definition plain_option (T : idtable) (v : bytes) : Prop :=
    (exists i, simple T i /\ v = idString T i) \/ (exists i, - 2 ^ 63 < i < 2 ^ 63 /\ v = format_int i).
  (** The values that variables are set to, which are printed as they are. *)
  Definition plain_value (v : bytes) : Prop :=
    v = str "true" \/ v = str "false" \/ exists i, - 2 ^ 63 < i < 2 ^ 63 /\ v = format_int i.

  (** The statements that are read back: all but COPY. *)
  Inductive plain_stmt (T : idtable) : stmt -> Prop :=
  | ps_begin : plain_stmt T SBegin
  | ps_commit : plain_stmt T SCommit
  | ps_rollback : plain_stmt T SRollback
  | ps_query s : plain_query T s -> plain_stmt T s
  | ps_explain r f w g h o : plain_query T (SSelect r f w g h o) -> plain_stmt T (SExplain (SSelect r f w g h o) false)
  | ps_set i v : simple T i \/ In i [kDATABASE; kSCHEMA] -> plain_value v -> plain_stmt T (SSet i v)
  | ps_create_table tn cols types defaults b csts fks : plain_table T tn ->
      Forall (simple T) cols -> NoDup cols -> cols <> [] -> length types = length cols -> length defaults = length cols ->
      Forall plain_type types -> Forall (plain_opt T) defaults -> Forall (plain_constraint T) csts -> no_clash csts ->
      Forall (plain_foreign T) fks -> plain_stmt T (SCreateTable tn cols types defaults b csts fks)
  | ps_create_index i tn key b : simple T i -> plain_table T tn -> plain_key T key -> plain_stmt T (SCreateIndex i tn key b)
  | ps_create_database i options : simple T i -> Forall (fun o => simple T (fst o) /\ plain_option T (snd o)) options ->
      NoDup (map fst options) -> plain_stmt T (SCreateDatabase i options)
  | ps_create_schema sn : plain_schema T sn -> plain_stmt T (SCreateSchema sn)
  | ps_alter_table tn l : plain_table T tn -> l <> [] -> Forall (plain_action T) l -> plain_stmt T (SAlterTable tn l)
  | ps_drop_table b c l : l <> [] -> Forall (plain_table T) l -> plain_stmt T (SDropTable b c l)
  | ps_drop_index tn i b : plain_table T tn -> simple T i -> plain_stmt T (SDropIndex tn i b)
  | ps_drop_database b i : simple T i -> plain_stmt T (SDropDatabase b i [])
  | ps_drop_schema b sn : plain_schema T sn -> plain_stmt T (SDropSchema b sn)
  | ps_delete tn w : plain_table T tn -> plain_opt T w -> plain_stmt T (SDelete tn w)
  | ps_insert tn cols rows : plain_table T tn -> Forall (simple T) cols -> NoDup cols ->
      rows <> [] -> plain_rows T rows -> plain_stmt T (SInsertValues tn cols (map (map Some) rows))
  | ps_update tn l w : plain_table T tn -> l <> [] -> Forall (fun u => simple T (fst u) /\ plain T false (snd u)) l ->
      plain_opt T w -> plain_stmt T (SUpdate tn (map (fun u => (fst u, Some (snd u))) l) w).
End Plain.

(** What is printed is well-formed UTF-8, and whenever it is what a parser has left
    to read, and the parser numbers the names as the table does, the expression
    is returned but for parentheses. *)
Definition returns {X : FloatLib} {L : CaseLib} {U : RuneLib} {B : BufLib} {P : PrintLib} (T : idtable) (e : expr) : Prop :=
  exists text, exprString T e = PText (encode text) /\ Forall scalar text /\
    forall input p, parsing input p -> p_unscanned p = 0%nat -> rest (p_scanner p) = text ->
      real (s_ids (p_scanner p)) -> later T (s_ids (p_scanner p)) ->
      exists e' p', ParseExpr p = Done e' p' /\ strip e' = strip e.

(** The same for a statement; all the text is read. *)
Definition returns_stmt {X : FloatLib} {L : CaseLib} {U : RuneLib} {B : BufLib} {P : PrintLib} (T : idtable) (s : stmt) : Prop :=
  exists text, stmtString T s = PText (encode text) /\ Forall scalar text /\
    forall input p, parsing input p -> p_unscanned p = 0%nat -> p_failed p = false -> rest (p_scanner p) = text ->
      real (s_ids (p_scanner p)) -> later T (s_ids (p_scanner p)) ->
      exists s' p', Parse p = PStmt (Some s') p' /\ strip_stmt s' = strip_stmt s /\ rest (p_scanner p') = [] /\ p_failed p' = false.
