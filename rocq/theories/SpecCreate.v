(** What a CREATE TABLE statement is to satisfy. *)

From Verif Require Export ModelParser.

Definition is_key (c : constraint expr) : Prop := con_type c = PrimaryConstraint \/ con_type c = UniqueConstraint.

(** Of two constraints, the second one written behind the first one. *)
Definition may_follow (a b : constraint expr) : Prop :=
  (con_type b = CheckConstraint \/ con_name b <> con_name a) /\
  ~ (con_type a = PrimaryConstraint /\ con_type b = PrimaryConstraint) /\
  (is_key a -> is_key b ->
     ik_columns (con_key a) <> ik_columns (con_key b) \/ ik_reverse (con_key a) <> ik_reverse (con_key b)) /\
  (con_type b = DefaultConstraint \/ con_type b = NotNullConstraint ->
     con_type a = con_type b -> con_colnum a <> con_colnum b).

(** One constraint of a table. *)
Definition constraint_ok (types : list coltype) (defaults : list (option expr)) (c : constraint expr) : Prop :=
  match con_type c with
  | PrimaryConstraint | UniqueConstraint =>
      con_colnum c = -1 /\ con_check c = None /\ ik_unique (con_key c) = true /\
      ik_columns (con_key c) <> [] /\ NoDup (ik_columns (con_key c)) /\
      length (ik_reverse (con_key c)) = length (ik_columns (con_key c))
  | CheckConstraint => (exists e, con_check c = Some e) /\ con_key c = noKey /\ -1 <= con_colnum c < zlen types
  | DefaultConstraint =>
      con_check c = None /\ con_key c = noKey /\ 0 <= con_colnum c /\
      exists e, nth_error defaults (Z.to_nat (con_colnum c)) = Some (Some e)
  | NotNullConstraint =>
      con_check c = None /\ con_key c = noKey /\ 0 <= con_colnum c /\
      exists t, nth_error types (Z.to_nat (con_colnum c)) = Some t /\ ct_notnull t = true
  end.

Definition table_ok (cols : list Z) (types : list coltype) (defaults : list (option expr))
    (csts : list (constraint expr)) : Prop :=
  NoDup cols /\ length types = length cols /\ length defaults = length cols /\
  ForallOrdPairs may_follow csts /\ Forall (constraint_ok types defaults) csts.
