(** What cannot be written as text, and the runtime error that is met then. *)

From Verif Require Export ModelPrint.

(** The errors of the Go runtime: the index behind the end of a slice, and a
    method of a nil interface.  The numerals of [format_int] are the usual ones (C63). *)
Definition behind_end (n : nat) : bytes :=
  let d := format_int (Z.of_nat n) in str "runtime error: index out of range [" ++ d ++ str "] with length " ++ d.
Definition nil_method : bytes := str "runtime error: invalid memory address or nil pointer dereference".

(** The parts of a statement. *)
Inductive part : Set :=
| OfExpr (e : expr)
| OfNothing                 (* DEFAULT: a nil interface *)
| OfKey (k : indexkey)
| OfFrom (f : fromitem)
| OfStmt (s : stmt).

Definition optional (o : option expr) : list part := match o with Some e => [OfExpr e] | None => [] end.
Definition or_nothing (o : option expr) : part := match o with Some e => OfExpr e | None => OfNothing end.
Definition result_parts (r : selectresult expr) : list part := match r with TableResult _ => [] | ExprResult e _ => [OfExpr e] end.

(** The parts whose text is written by calling their [String] method: a runtime
    error there is one of the whole. *)
Definition called (x : part) : list part :=
  match x with
  | OfExpr (SExpr _ args) => map OfExpr args
  | OfExpr (UnaryExpr NoOp e) => [OfExpr e]
  | OfFrom (FromJoin _ _ _ cond _) => optional cond
  | OfStmt (SInsertValues _ _ rows) => map or_nothing (concat rows)
  | OfStmt (SValues rows) => map OfExpr (concat rows)
  | OfStmt (SSelect results _ _ groupBy _ orderBy) =>
      flat_map (fun r => match r with ExprResult e 0 => [OfExpr e] | _ => [] end) (match results with Some l => l | None => [] end) ++
      map OfExpr groupBy ++ map (fun o => OfExpr (fst o)) orderBy
  | _ => []
  end.

(** The parts whose text package fmt writes, if any: it reports a runtime error in
    the text. *)
Definition formatted (x : part) : list part :=
  match x with
  | OfExpr (UnaryExpr NoOp _) => []
  | OfExpr (UnaryExpr _ e) => [OfExpr e]
  | OfExpr (BinaryExpr _ l r) => [OfExpr l; OfExpr r]
  | OfExpr (Subquery _ _ e s) => optional e ++ [OfStmt s]
  | OfFrom (FromStmt s _ _) => [OfStmt s]
  | OfFrom (FromJoin l r _ _ _) => [OfFrom l; OfFrom r]
  | OfStmt (SExplain s _) => [OfStmt s]
  | OfStmt (SCreateTable _ _ _ defaults _ csts _) =>
      flat_map optional defaults ++ flat_map (fun c => OfKey (con_key c) :: optional (con_check c)) csts
  | OfStmt (SCreateIndex _ _ key _) => [OfKey key]
  | OfStmt (SDelete _ cond) => optional cond
  | OfStmt (SUpdate _ updates cond) => flat_map (fun u => optional (snd u)) updates ++ optional cond
  | OfStmt (SSelect results from cond _ having _) =>
      flat_map result_parts (match results with Some l => l | None => [] end) ++
      match from with Some f => [OfFrom f] | None => [] end ++ optional cond ++ optional having
  | _ => []
  end.

(** What is wrong with a part itself: a reference to no name, a key with fewer
    directions than columns, and a table with fewer names or defaults than types
    of columns. *)
Inductive flawed : part -> bytes -> Prop :=
| fl_ref : flawed (OfExpr (Ref [])) (behind_end 0)
| fl_nothing : flawed OfNothing nil_method
| fl_key k : (length (ik_reverse k) < length (ik_columns k))%nat -> flawed (OfKey k) (behind_end (length (ik_reverse k)))
| fl_columns tn cols types defaults b csts fks n : n = Nat.min (length cols) (length defaults) -> (n < length types)%nat ->
    flawed (OfStmt (SCreateTable tn cols types defaults b csts fks)) (behind_end n).

(** The first runtime error met when the part is written: its own flaw, or that of
    a part called, before which all are fine. *)
Inductive breaks : part -> bytes -> Prop :=
| br_flawed x w : flawed x w -> breaks x w
| br_called x w before y after : called x = before ++ y :: after -> Forall writable before -> breaks y w -> breaks x w
with writable : part -> Prop :=
| fi_intro x : (forall w, ~ flawed x w) -> Forall writable (called x) -> writable x.

(** Parts of parts. *)
Inductive within : part -> part -> Prop :=
| wi_self x : within x x
| wi_part x y z : In y (called x ++ formatted x) -> within z y -> within z x.

(** INSERT with DEFAULT among the values. *)
Definition defaulted (s : stmt) : Prop :=
  match s with SInsertValues _ _ rows => exists row, In row rows /\ In None row | _ => False end.

(** What the [String] method of a part does. *)
Definition part_text {P : PrintLib} (T : idtable) (x : part) : printed :=
  match x with
  | OfExpr e => exprString T e
  | OfNothing => PPanic nil_interface
  | OfKey k => keyString T k
  | OfFrom f => fromString T f
  | OfStmt s => stmtString T s
  end.
