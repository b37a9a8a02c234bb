(** Expressions: what they are spelled as and how they are grouped. *)

From Verif Require Export ModelParser.

(** The words of an expression, in the order in which they are written. *)
Inductive word : Set :=
| WOp (op : sqlop)
| WOpen
| WClose
| WCall (name : Z)        (* and the parenthesis behind it *)
| WComma
| WAtom (e : expr).       (* a literal, a reference, or a form with a subquery *)

Fixpoint words (e : expr) : list word :=
  match e with
  | UnaryExpr NoOp x => [WOpen] ++ words x ++ [WClose]
  | UnaryExpr op x => [WOp op] ++ words x
  | BinaryExpr op l r => words l ++ [WOp op] ++ words r
  | SExpr name args =>
      [WCall name] ++
      (fix all (args : list expr) : list word :=
         match args with
         | [] => []
         | a :: args' => words a ++ [WComma] ++ all args'
         end) args ++ [WClose]
  | _ => [WAtom e]
  end.

(** The table of precedences (parser/parser.go:1033-1056): a higher number binds
    tighter. *)
Definition binds (op : sqlop) : Z :=
  match op with
  | OrOp => 1
  | AndOp => 2
  | NotOp => 3
  | EqualOp | NotEqualOp => 4
  | LessThanOp | LessEqualOp | GreaterThanOp | GreaterEqualOp => 5
  | BinaryAndOp | BinaryOrOp | LShiftOp | RShiftOp => 6
  | AddOp | SubtractOp => 7
  | MultiplyOp | DivideOp | ModuloOp => 8
  | NegateOp => 9
  | ConcatOp => 10
  | NoOp => 11
  end.

(** How tight the outermost operator binds, if it is a binary one. *)
Definition outer (e : expr) : Z :=
  match e with BinaryExpr op _ _ => binds op | _ => 12 end.

(** Operators bind as the table says; those that bind equally group to the left. *)
Fixpoint grouped (e : expr) : Prop :=
  match e with
  | UnaryExpr NoOp x => grouped x
  | UnaryExpr op x => grouped x /\ binds op <= outer x
  | BinaryExpr op l r => grouped l /\ grouped r /\ binds op <= outer l /\ binds op < outer r
  | SExpr _ args =>
      (fix all (args : list expr) : Prop :=
         match args with [] => True | a :: args' => grouped a /\ all args' end) args
  | _ => True
  end.

(** The operators written before their operand and between two. *)
Definition prefix_op (op : sqlop) : Prop :=
  match op with NotOp | NegateOp => True | _ => False end.
Definition infix_op (op : sqlop) : Prop :=
  match op with NoOp | NotOp | NegateOp => False | _ => True end.

(** How tight the loosest prefix operator binds that has no operator behind its
    operand: what follows such an expression could belong to that operand. *)
Fixpoint edge (e : expr) : Z :=
  match e with
  | UnaryExpr NoOp _ => 12
  | UnaryExpr op x => Z.min (binds op) (edge x)
  | BinaryExpr _ _ r => edge r
  | _ => 12
  end.

(** Grouped, and no operator takes as left operand what ends in a prefix operator
    that binds looser: [NOT a = b] is [NOT (a = b)]. *)
Fixpoint tight (e : expr) : Prop :=
  match e with
  | UnaryExpr NoOp x => tight x
  | UnaryExpr op x => prefix_op op /\ tight x /\ binds op <= outer x
  | BinaryExpr op l r => infix_op op /\ tight l /\ tight r /\ binds op <= outer l /\ binds op < outer r /\ binds op <= edge l
  | SExpr _ args =>
      (fix all (args : list expr) : Prop :=
         match args with [] => True | a :: args' => tight a /\ all args' end) args
  | _ => True
  end.

(** An operand: no operator is outermost. *)
Definition single (e : expr) : Prop :=
  match e with
  | UnaryExpr NoOp _ => True
  | UnaryExpr _ _ | BinaryExpr _ _ _ => False
  | _ => True
  end.

(** As read from left to right: what is left of an operator is an operand,
    everything behind it is its right operand. *)
Fixpoint read_right (e : expr) : Prop :=
  match e with
  | UnaryExpr NoOp x => read_right x
  | UnaryExpr op x => prefix_op op /\ read_right x
  | BinaryExpr op l r => infix_op op /\ single l /\ read_right l /\ read_right r
  | SExpr _ args =>
      (fix all (args : list expr) : Prop :=
         match args with [] => True | a :: args' => read_right a /\ all args' end) args
  | _ => True
  end.
