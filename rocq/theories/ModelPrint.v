(** parser/sql: the text of statements and expressions.

    A nil slice and an empty one are not told apart (ModelSql.v).  The bytes of a
    literal of bytes are those the slice refers to ([deref_expr]). *)

From Verif Require Export ModelParser.

(** What a [String] method does: it returns a text, or it panics with a
    runtime error.  The methods are those of parser/sql/datadef.go, expr.go,
    query.go and stmt.go. *)
Inductive printed : Set := PText (s : bytes) | PPanic (what : bytes).

(** The errors of the Go runtime met here: an index out of range, and a
    method of a nil interface.  An index in parser/sql/expr.go:111-121, a
    nil interface in parser/sql/query.go:188-208. *)
Definition out_of_range (i n : Z) : bytes :=
  str "runtime error: index out of range [" ++ format_int i ++ str "] with length " ++ format_int n.
Definition nil_interface : bytes := str "runtime error: invalid memory address or nil pointer dereference".

(** Writing to the buffer what several calls return, one after the other;
    the first panic is that of the whole.  The buffers are those of
    parser/sql/datadef.go:119-190. *)
Fixpoint writes (l : list printed) : printed :=
  match l with
  | [] => PText []
  | PPanic w :: _ => PPanic w
  | PText s :: l' => match writes l' with PText t => PText (s ++ t) | PPanic w => PPanic w end
  end.

(** The loops that write a comma and a space between the elements, e.g.
    parser/sql/expr.go:127-132. *)
Fixpoint commas (l : list printed) : printed :=
  match l with
  | [] => PText []
  | [p] => p
  | p :: l' => writes [p; PText (str ", "); commas l']
  end.

(** How [%s] of [fmt.Sprintf] and [fmt.Fprintf] writes what the [String]
    method of the argument does: a panic is recovered and described.
    [nilText] is what it writes for a nil interface.  As called in
    parser/sql/datadef.go:82-91. *)
Definition fmtS (p : printed) : bytes :=
  match p with
  | PText s => s
  | PPanic w => str "%!s(PANIC=String method: " ++ w ++ str ")"
  end.
Definition nilText : bytes := str "%!s(<nil>)".

(** [opNames], parser/sql/expr.go:52-76. *)
Definition opName (op : sqlop) : bytes :=
  str match op with
      | AddOp => "+"
      | AndOp => "AND"
      | BinaryAndOp => "&"
      | BinaryOrOp => "|"
      | ConcatOp => "||"
      | DivideOp => "/"
      | EqualOp => "=="
      | GreaterEqualOp => ">="
      | GreaterThanOp => ">"
      | LessEqualOp => "<="
      | LessThanOp => "<"
      | LShiftOp => "<<"
      | ModuloOp => "%"
      | MultiplyOp => "*"
      | NegateOp => "-"
      | NoOp => ""
      | NotEqualOp => "!="
      | NotOp => "NOT"
      | OrOp => "OR"
      | RShiftOp => ">>"
      | SubtractOp => "-"
      end.

(** [ValueType.String], types/value.go:32-49. *)
Definition valtypeString (vt : valtype) : bytes :=
  str match vt with
      | UnknownType => "UNKNOWN"
      | BoolType => "BOOL"
      | StringType => "STRING"
      | BytesType => "BYTES"
      | Float64Type => "DOUBLE"
      | Int64Type => "INT"
      end.

(** [JoinType.String] and [joinType], parser/sql/query.go:310-316, 326-328. *)
Definition jointypeString (jt : jointype) : bytes :=
  str match jt with
      | InnerJoin => "JOIN"
      | LeftJoin => "LEFT JOIN"
      | RightJoin => "RIGHT JOIN"
      | FullJoin => "FULL JOIN"
      | CrossJoin => "CROSS JOIN"
      end.

(** [ConstraintType.String], parser/sql/datadef.go:57-72. *)
Definition contypeString (ct : contype) : bytes :=
  str match ct with
      | DefaultConstraint => "DEFAULT"
      | NotNullConstraint => "NOT NULL"
      | PrimaryConstraint => "PRIMARY KEY"
      | UniqueConstraint => "UNIQUE"
      | CheckConstraint => "CHECK"
      end.

(** The elements of the loop of [IndexKey.String], parser/sql/datadef.go:19-29;
    [i] and [n] are the index and the length of [Reverse], for the panic. *)
Fixpoint keyParts (T : idtable) (i n : Z) (cols : list Z) (reverse : list bool) : list printed :=
  match cols with
  | [] => []
  | c :: cols' =>
      match reverse with
      | [] => [PPanic (out_of_range i n)]
      | r :: reverse' =>
          PText (idString T c ++ (if r then str " DESC" else str " ASC")) :: keyParts T (i + 1) n cols' reverse'
      end
  end.

(** [IndexKey.String], parser/sql/datadef.go:16-32. *)
Definition keyString (T : idtable) (k : indexkey) : printed :=
  writes [PText (str "("); commas (keyParts T 0 (zlen (ik_reverse k)) (ik_columns k) (ik_reverse k)); PText (str ")")].

(** Identifiers with commas between them, e.g. parser/sql/query.go:50-55. *)
Definition idCommas (T : idtable) (l : list Z) : printed := commas (map (fun i => PText (idString T i)) l).

(** [TableName.String], types/name.go:18-26. *)
Definition tableString (T : idtable) (tn : tablename) : bytes :=
  if tn_database tn =? 0 then
    if tn_schema tn =? 0 then idString T (tn_table tn)
    else idString T (tn_schema tn) ++ str "." ++ idString T (tn_table tn)
  else idString T (tn_database tn) ++ str "." ++ idString T (tn_schema tn) ++ str "." ++ idString T (tn_table tn).

(** [SchemaName.String], types/name.go:32-37. *)
Definition schemaString (T : idtable) (sn : schemaname) : bytes :=
  if sn_database sn =? 0 then idString T (sn_schema sn)
  else idString T (sn_database sn) ++ str "." ++ idString T (sn_schema sn).

(** [ForeignKey.String], parser/sql/datadef.go:119-144. *)
Definition fkString (T : idtable) (fk : foreignkey) : printed :=
  writes
    [PText (if fk_name fk =? 0 then str "CONSTRAINT FOREIGN KEY ("
            else str "CONSTRAINT " ++ idString T (fk_name fk) ++ str " FOREIGN KEY (");
     idCommas T (fk_cols fk);
     PText (str ") REFERENCES " ++ tableString T (fk_ref fk));
     match fk_refcols fk with
     | [] => PText []
     | l => writes [PText (str " ("); idCommas T l; PText (str ")")]
     end].

(** [AddForeignKey.String] and [DropConstraint.String],
    parser/sql/datadef.go:268-281; a name that is zero goes with a constraint
    type (ModelSql.v), and without one [%s] of the type, which is zero then,
    describes the panic of parser/sql/datadef.go:70. *)
Definition actionString (T : idtable) (a : alteraction) : printed :=
  PText
    match a with
    | AddForeignKey fk => str "ADD " ++ fmtS (fkString T fk)
    | DropConstraint name ifExists =>
        if name =? 0 then
          str "ALTER COLUMN " ++ idString T 0 ++ str " DROP %!s(PANIC=String method: unexpected constraint type: 0)"
        else if ifExists then str "DROP CONSTRAINT IF EXISTS " ++ idString T name
        else str "DROP CONSTRAINT " ++ idString T name
    | DropColumnConstraint column ct => str "ALTER COLUMN " ++ idString T column ++ str " DROP " ++ contypeString ct
    end.

(** The options of a database, parser/sql/datadef.go:225-230, 359-364.  Go
    visits the entries of a map in any order: here it is that of the list. *)
Definition optionsString (T : idtable) (options : list (Z * bytes)) : bytes :=
  match options with
  | [] => []
  | _ => str " WITH" ++ flat_map (fun o => str " " ++ idString T (fst o) ++ str " = " ++ snd o) options
  end.

Section Print.
  Context {P : PrintLib}.

  (** [FormatValue], types/value.go:210-216, with the [String] methods of values,
      types/value.go:53-58, 83-85, 113-115, 143-145, 165-175. *)
  Definition FormatValue (v : value) : bytes :=
    match v with
    | VNull => str "NULL"
    | VBool b => if b then str "true" else str "false"
    | VInt i => format_int i
    | VFloat p => x_print_float p
    | VString s => str "'" ++ s ++ str "'"
    | VBytes b => bytesString b
    end.

  (** The lines of the columns, parser/sql/datadef.go:164-176, given how defaults
      are written; the indexes and lengths are for the panics. *)
  Fixpoint columnParts (T : idtable) (i nc nd : Z) (cols : list Z) (types : list coltype) (defaults : list (option bytes))
    : list printed :=
    match types with
    | [] => []
    | ct :: types' =>
        match cols, defaults with
        | c :: cols', d :: defaults' =>
            PText (idString T c ++ str " " ++ valtypeString (ct_type ct) ++
                   (if ct_notnull ct then str " NOT NULL" else []) ++
                   match d with Some s => str " DEFAULT " ++ s | None => [] end)
              :: columnParts T (i + 1) nc nd cols' types' defaults'
        | [], _ => [PPanic (out_of_range i nc)]
        | _, [] => [PPanic (out_of_range i nd)]
        end
    end.

  (** [Constraint.String], parser/sql/datadef.go:82-97, given how the check is
      written. *)
  Definition constraintString (T : idtable) (ct : contype) (name : Z) (key : indexkey) (check : bytes) : bytes :=
    match ct with
    | DefaultConstraint | NotNullConstraint => []
    | PrimaryConstraint => str ", CONSTRAINT " ++ idString T name ++ str " PRIMARY KEY " ++ fmtS (keyString T key)
    | UniqueConstraint => str ", CONSTRAINT " ++ idString T name ++ str " UNIQUE " ++ fmtS (keyString T key)
    | CheckConstraint => str ", CONSTRAINT " ++ idString T name ++ str " CHECK (" ++ check ++ str ")"
    end.

  (** The rows of [InsertValues.String] and [Values.String],
      parser/sql/query.go:129-145, 191-206, given what their expressions write. *)
  Fixpoint rowParts (first : bool) (rows : list (list printed)) : printed :=
    match rows with
    | [] => PText []
    | r :: rows' =>
        writes [PText (if first then str " (" else str ", ("); commas r; PText (str ")"); rowParts false rows']
    end.

  (** [Expr.String]: of [Literal], parser/sql/expr.go:105-107; [Ref], 111-119;
      [SExpr], 123-135; [UnaryExpr], 139-144; [BinaryExpr], 148-150; [Subquery],
      154-167.

      [Stmt.String]: parser/sql/stmt.go:21-23, 29-31, 37-39, 48-50, 58-60, 69-71;
      of [CreateTable], parser/sql/datadef.go:156-186; [CreateIndex], 199-211;
      [CreateDatabase], 222-232; [CreateSchema], 240-242; [AlterTable], 283-293;
      [DropTable], 305-321; [DropIndex], 335-340; [DropDatabase], 352-366;
      [DropSchema], 375-380; of [Copy], parser/sql/query.go:70-85; [Delete],
      96-101; [InsertValues], 113-148; [Update], 165-178; [Values], 188-208;
      [Select], 239-294, with [TableResult] and [ExprResult].

      [FromItem.String]: parser/sql/query.go:20-25, 33-38, 46-60, 330-348.

      The text depends on the table of identifiers at the time. *)
  Fixpoint exprString (T : idtable) (e : expr) : printed :=
    match e with
    | Literal v => PText (FormatValue v)
    | Ref [] => PPanic (out_of_range 0 0)
    | Ref (i :: l) => PText (idString T i ++ flat_map (fun j => str "." ++ idString T j) l)
    | SExpr name args => writes [PText (idString T name ++ str "("); commas (map (exprString T) args); PText (str ")")]
    | UnaryExpr NoOp e => exprString T e
    | UnaryExpr op e => PText (str "(" ++ opName op ++ str " " ++ fmtS (exprString T e) ++ str ")")
    | BinaryExpr op l r =>
        PText (str "(" ++ fmtS (exprString T l) ++ str " " ++ opName op ++ str " " ++ fmtS (exprString T r) ++ str ")")
    | Subquery op eop e s =>
        let left := match e with Some e => fmtS (exprString T e) | None => nilText end in
        PText
          match op with
          | Scalar => str "(" ++ fmtS (stmtString T s) ++ str ")"
          | ModelSql.Exists => str "EXISTS(" ++ fmtS (stmtString T s) ++ str ")"
          | Any => left ++ str " " ++ opName eop ++ str " ANY(" ++ fmtS (stmtString T s) ++ str ")"
          | All => left ++ str " " ++ opName eop ++ str " ALL(" ++ fmtS (stmtString T s) ++ str ")"
          end
    end
  with stmtString (T : idtable) (s : stmt) : printed :=
    match s with
    | SBegin => PText (str "BEGIN")
    | SCommit => PText (str "COMMIT")
    | SRollback => PText (str "ROLLBACK")
    | SSet variable v => PText (str "SET " ++ idString T variable ++ str " TO " ++ v)
    | SShow variable => PText (str "SHOW " ++ idString T variable)
    | SExplain s _ => PText (str "EXPLAIN " ++ fmtS (stmtString T s))
    | SCreateTable tn cols types defaults ifNotExists csts fks =>
        writes
          [PText (str "CREATE TABLE" ++ (if ifNotExists then str " IF NOT EXISTS" else []) ++ str " " ++ tableString T tn ++ str " (");
           commas (columnParts T 0 (zlen cols) (zlen defaults) cols types
                     (map (fun d => match d with Some e => Some (fmtS (exprString T e)) | None => None end) defaults));
           PText (flat_map (fun c =>
                    constraintString T (con_type c) (con_name c) (con_key c)
                      match con_check c with Some e => fmtS (exprString T e) | None => nilText end) csts);
           writes (map (fun fk => writes [PText (str ", "); fkString T fk]) fks);
           PText (str ")")]
    | SCreateIndex index tn key ifNotExists =>
        PText (str "CREATE" ++ (if ik_unique key then str " UNIQUE" else []) ++ str " INDEX" ++
               (if ifNotExists then str " IF NOT EXISTS" else []) ++
               str " " ++ idString T index ++ str " ON " ++ tableString T tn ++ str " " ++ fmtS (keyString T key))
    | SCreateDatabase database options =>
        PText (str "CREATE DATABASE " ++ idString T database ++ optionsString T options)
    | SCreateSchema sn => PText (str "CREATE SCHEMA " ++ schemaString T sn)
    | SAlterTable tn actions =>
        writes [PText (str "ALTER TABLE " ++ tableString T tn ++ str " "); commas (map (actionString T) actions)]
    | SDropTable ifExists cascade tables =>
        writes
          [PText (str "DROP TABLE " ++ (if ifExists then str "IF EXISTS " else []));
           commas (map (fun tn => PText (tableString T tn)) tables);
           PText (if cascade then str " CASCADE" else [])]
    | SDropIndex tn index ifExists =>
        PText (str "DROP INDEX " ++ (if ifExists then str "IF EXISTS " else []) ++ idString T index ++ str " ON " ++ tableString T tn)
    | SDropDatabase ifExists database options =>
        PText (str "DROP DATABASE " ++ (if ifExists then str "IF EXISTS " else []) ++ idString T database ++ optionsString T options)
    | SDropSchema ifExists sn =>
        PText (str "DROP SCHEMA " ++ (if ifExists then str "IF EXISTS " else []) ++ schemaString T sn)
    | SCopy tn cols _ delimiter =>
        writes
          [PText (str "COPY " ++ tableString T tn ++ str " (");
           idCommas T cols;
           PText (str ") FROM STDIN" ++
                  (if delimiter =? 9 then [] else str " DELIMITER '" ++ utf8_encode delimiter ++ str "'"))]
    | SDelete tn cond =>
        PText (str "DELETE FROM " ++ tableString T tn ++
               match cond with Some e => str " WHERE " ++ fmtS (exprString T e) | None => [] end)
    | SInsertValues tn cols rows =>
        writes
          [PText (str "INSERT INTO " ++ tableString T tn ++ str " ");
           match cols with [] => PText [] | _ => writes [PText (str "("); idCommas T cols; PText (str ") ")] end;
           PText (str "VALUES");
           rowParts true (map (map (fun v => match v with Some e => exprString T e | None => PPanic nil_interface end)) rows)]
    | SUpdate tn updates cond =>
        writes
          [PText (str "UPDATE " ++ tableString T tn ++ str " SET ");
           commas (map (fun u : Z * option expr => PText (idString T (fst u) ++ str " = " ++
                     match snd u with Some e => fmtS (exprString T e) | None => nilText end)) updates);
           PText match cond with Some e => str " WHERE " ++ fmtS (exprString T e) | None => [] end]
    | SValues rows => writes [PText (str "VALUES"); rowParts true (map (map (exprString T)) rows)]
    | SSelect results from cond groupBy having orderBy =>
        writes
          [PText (str "SELECT ");
           match results with
           | None => PText (str "*")
           | Some l =>
               commas (map (fun r =>
                 match r with
                 | TableResult t => PText (idString T t ++ str ".*")
                 | ExprResult e alias =>
                     if alias =? 0 then exprString T e
                     else PText (fmtS (exprString T e) ++ str " AS " ++ idString T alias)
                 end) l)
           end;
           PText (str " FROM " ++ match from with Some f => fmtS (fromString T f) | None => nilText end);
           PText match cond with Some e => str " WHERE " ++ fmtS (exprString T e) | None => [] end;
           match groupBy with
           | [] => PText []
           | _ =>
               writes
                 [PText (str " GROUP BY ");
                  commas (map (exprString T) groupBy);
                  PText match having with Some e => str " HAVING " ++ fmtS (exprString T e) | None => [] end]
           end;
           match orderBy with
           | [] => PText []
           | _ =>
               writes
                 [PText (str " ORDER BY ");
                  commas (map (fun o : expr * bool =>
                    writes [exprString T (fst o); PText (if snd o then str " DESC" else str " ASC")]) orderBy)]
           end]
    end
  with fromString (T : idtable) (f : fromitem) : printed :=
    match f with
    | FromTableAlias tn alias =>
        PText (tableString T tn ++ (if alias =? 0 then [] else str " AS " ++ idString T alias))
    | FromIndexAlias tn index alias =>
        PText (tableString T tn ++ str "@" ++ idString T index ++ (if alias =? 0 then [] else str " AS " ++ idString T alias))
    | FromStmt s alias cols =>
        writes
          [PText (str "(" ++ fmtS (stmtString T s) ++ str ") AS " ++ idString T alias);
           match cols with [] => PText [] | _ => writes [PText (str " ("); idCommas T cols; PText (str ")")] end]
    | FromJoin l r jt cond cols =>
        writes
          [PText (str "(" ++ fmtS (fromString T l) ++ str " " ++ jointypeString jt ++ str " " ++ fmtS (fromString T r));
           match cond with Some e => writes [PText (str " ON "); exprString T e] | None => PText [] end;
           match cols with [] => PText [] | _ => writes [PText (str " USING ("); idCommas T cols; PText (str ")")] end;
           PText (str ")")]
    end.
End Print.
