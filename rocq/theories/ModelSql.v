(** parser/sql: statements and expressions, and how their names are resolved.

    The text of a statement is in ModelPrint.v. *)

From Verif Require Export ModelStore.

(** [SchemaName], types/name.go:13-16; [TableName], types/name.go:7-11, is
    [tablename]. *)
Record schemaname : Set := { sn_database : Z; sn_schema : Z }.

(** [Op], parser/sql/expr.go:26-50. *)
Inductive sqlop : Set :=
  | AddOp | AndOp | BinaryAndOp | BinaryOrOp | ConcatOp | DivideOp | EqualOp
  | GreaterEqualOp | GreaterThanOp | LessEqualOp | LessThanOp | LShiftOp
  | ModuloOp | MultiplyOp | NegateOp | NoOp | NotEqualOp | NotOp | OrOp
  | RShiftOp | SubtractOp.

(** [SubqueryOp], parser/sql/expr.go:89-96. *)
Inductive subop : Set := Scalar | Exists | Any | All.

(** [IndexKey], parser/sql/datadef.go:10-14. *)
Record indexkey : Set := { ik_unique : bool; ik_columns : list Z; ik_reverse : list bool }.

(** The zero value of [IndexKey], parser/parser.go:594-599, 740-745. *)
Definition noKey : indexkey := {| ik_unique := false; ik_columns := []; ik_reverse := [] |}.

(** [IndexKey.Equal], parser/sql/datadef.go:34-45; [None] is an index out of
    range. *)
Fixpoint keyEqualLoop (c1 : list Z) (r1 : list bool) (c2 : list Z) (r2 : list bool) : option bool :=
  match c1, c2 with
  | a :: c1', b :: c2' =>
      if negb (a =? b) then Some false
      else
        match r1, r2 with
        | x :: r1', y :: r2' => if Bool.eqb x y then keyEqualLoop c1' r1' c2' r2' else Some false
        | _, _ => None
        end
  | _, _ => Some true
  end.
Definition keyEqual (k1 k2 : indexkey) : option bool :=
  if (length (ik_columns k1) =? length (ik_columns k2))%nat
  then keyEqualLoop (ik_columns k1) (ik_reverse k1) (ik_columns k2) (ik_reverse k2)
  else Some false.

(** [ConstraintType], parser/sql/datadef.go:47-55. *)
Inductive contype : Set :=
  | DefaultConstraint | NotNullConstraint | PrimaryConstraint | UniqueConstraint | CheckConstraint.

(** [Constraint], parser/sql/datadef.go:74-80, with [E] for [Expr]; nil is
    [None]. *)
Record constraint (E : Set) : Set := {
  con_type : contype;
  con_name : Z;
  con_colnum : Z;
  con_key : indexkey;
  con_check : option E
}.
Arguments con_type {E}. Arguments con_name {E}. Arguments con_colnum {E}.
Arguments con_key {E}. Arguments con_check {E}.

(** [RefAction], parser/sql/datadef.go:99-107. *)
Inductive refaction : Set := NoAction | Restrict | Cascade | SetNull | SetDefault.

(** [ForeignKey], parser/sql/datadef.go:109-117, without [FKTable], which
    nothing sets. *)
Record foreignkey : Set := {
  fk_name : Z;
  fk_cols : list Z;
  fk_ref : tablename;
  fk_refcols : list Z;
  fk_ondelete : refaction;
  fk_onupdate : refaction
}.

(** [AlterAction], [AddForeignKey] and [DropConstraint],
    parser/sql/datadef.go:248-261; the constraint type is zero if there is a
    name. *)
Inductive alteraction : Set :=
  | AddForeignKey (fk : foreignkey)
  | DropConstraint (name : Z) (ifExists : bool)
  | DropColumnConstraint (column : Z) (ct : contype).

(** [JoinType], parser/sql/query.go:298-308, other than [NoJoin]. *)
Inductive jointype : Set := InnerJoin | LeftJoin | RightJoin | FullJoin | CrossJoin.

(** [SelectResult], [TableResult] and [ExprResult],
    parser/sql/query.go:212-223. *)
Inductive selectresult (E : Set) : Set :=
  | TableResult (table : Z)
  | ExprResult (e : E) (alias : Z).
Arguments TableResult {E}. Arguments ExprResult {E}.

(** [Expr] and its implementations, parser/sql/expr.go:10-23, 78-103; [Stmt] and
    its implementations, parser/sql/stmt.go:14-67, parser/sql/datadef.go:146-373
    and parser/sql/query.go:62-237; [FromItem] and its implementations,
    parser/sql/query.go:11-44, 318-324.

    An expression or from item that may be nil is an option.  A nil slice and an
    empty one are not told apart, except [Results] of [Select].  A value of type
    [Literal] and a pointer to one are not told apart.  A map from identifiers is
    a list without duplicates.  [Copy] does not have the reader, which is that of
    the parser. *)
Inductive expr : Set :=
  | Literal (v : value)                                     (* nil is VNull *)
  | Ref (ids : list Z)
  | SExpr (name : Z) (args : list expr)
  | UnaryExpr (op : sqlop) (e : expr)
  | BinaryExpr (op : sqlop) (l r : expr)
  | Subquery (op : subop) (eop : sqlop) (e : option expr) (s : stmt)
with stmt : Set :=
  | SBegin
  | SCommit
  | SRollback
  | SSet (variable : Z) (v : bytes)
  | SShow (variable : Z)
  | SExplain (s : stmt) (verbose : bool)
  | SCreateTable (tn : tablename) (cols : list Z) (types : list coltype) (defaults : list (option expr)) (ifNotExists : bool)
      (csts : list (constraint expr)) (fks : list foreignkey)
  | SCreateIndex (index : Z) (tn : tablename) (key : indexkey) (ifNotExists : bool)
  | SCreateDatabase (database : Z) (options : list (Z * bytes))
  | SCreateSchema (sn : schemaname)
  | SAlterTable (tn : tablename) (actions : list alteraction)
  | SDropTable (ifExists cascade : bool) (tables : list tablename)
  | SDropIndex (tn : tablename) (index : Z) (ifExists : bool)
  | SDropDatabase (ifExists : bool) (database : Z) (options : list (Z * bytes))
  | SDropSchema (ifExists : bool) (sn : schemaname)
  | SCopy (tn : tablename) (cols : list Z) (line : Z) (delimiter : Z)
  | SDelete (tn : tablename) (cond : option expr)
  | SInsertValues (tn : tablename) (cols : list Z) (rows : list (list (option expr)))
  | SUpdate (tn : tablename) (updates : list (Z * option expr)) (cond : option expr)
  | SValues (rows : list (list expr))
  | SSelect (results : option (list (selectresult expr))) (from : option fromitem) (cond : option expr)
      (groupBy : list expr) (having : option expr) (orderBy : list (expr * bool))
with fromitem : Set :=
  | FromTableAlias (tn : tablename) (alias : Z)
  | FromIndexAlias (tn : tablename) (index alias : Z)
  | FromStmt (s : stmt) (alias : Z) (cols : list Z)
  | FromJoin (l r : fromitem) (jt : jointype) (cond : option expr) (cols : list Z).

(** [Resolver], parser/sql/stmt.go:9-12. *)
Record resolver : Set := { ResolveTable : tablename -> tablename; ResolveSchema : schemaname -> schemaname }.

(** [Stmt.Resolve], parser/sql/stmt.go:25, 33, 41, 52, 62, 73-75;
    parser/sql/datadef.go:188-190, 213-215, 234, 244-246, 295-297, 323-327,
    342-344, 368, 382-384; parser/sql/query.go:87-89, 103-105, 150-152, 180-182,
    210, 296: the statement that the code leaves in place of the old one. *)
Fixpoint Resolve (r : resolver) (s : stmt) : stmt :=
  match s with
  | SExplain s v => SExplain (Resolve r s) v
  | SCreateTable tn c ty d b k f => SCreateTable (ResolveTable r tn) c ty d b k f
  | SCreateIndex i tn k b => SCreateIndex i (ResolveTable r tn) k b
  | SCreateSchema sn => SCreateSchema (ResolveSchema r sn)
  | SAlterTable tn a => SAlterTable (ResolveTable r tn) a
  | SDropTable b c l => SDropTable b c (map (ResolveTable r) l)
  | SDropIndex tn i b => SDropIndex (ResolveTable r tn) i b
  | SDropSchema b sn => SDropSchema b (ResolveSchema r sn)
  | SCopy tn c l d => SCopy (ResolveTable r tn) c l d
  | SDelete tn w => SDelete (ResolveTable r tn) w
  | SInsertValues tn c rows => SInsertValues (ResolveTable r tn) c rows
  | SUpdate tn u w => SUpdate (ResolveTable r tn) u w
  | _ => s
  end.
