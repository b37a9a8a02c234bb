(** Columns as they are written in tests. *)

From Verif Require Export SpecTestutil SpecIdent SpecTokens.

(** The names of types, and what they stand for. *)
Definition type_names : list (bytes * coltype) :=
  let ct t s f := {| ct_type := t; ct_size := s; ct_fixed := f; ct_notnull := false |} in
  [ (str "BINARY", ct BytesType 1 true); (str "VARBINARY", ct BytesType 1 false); (str "BLOB", ct BytesType 4294967294 false);
    (str "BYTEA", ct BytesType 4294967294 false); (str "BYTES", ct BytesType 4294967294 false);
    (str "CHAR", ct StringType 1 true); (str "CHARACTER", ct StringType 1 true); (str "VARCHAR", ct StringType 1 false);
    (str "TEXT", ct StringType 4294967294 false); (str "BOOL", ct BoolType 1 false); (str "BOOLEAN", ct BoolType 1 false);
    (str "DOUBLE", ct Float64Type 8 false); (str "REAL", ct Float64Type 4 false); (str "SMALLINT", ct Int64Type 2 false);
    (str "INT2", ct Int64Type 2 false); (str "INT", ct Int64Type 4 false); (str "INTEGER", ct Int64Type 4 false);
    (str "INT4", ct Int64Type 4 false); (str "INT8", ct Int64Type 8 false); (str "BIGINT", ct Int64Type 8 false) ].

Section Columns.
  Context {L : CaseLib} {U : RuneLib}.

  Definition word_rune (r : Z) : Prop := x_is_letter r = true \/ x_is_digit r = true \/ r = 95 \/ r = 36.
  Definition word (w : list Z) : Prop := w <> [] /\ Forall word_rune w.
  Definition keyword (k : bytes) (w : list Z) : Prop := word w /\ means (encode w) false (Keyword k).
  Definition some_spaces (w : list Z) : Prop := spaces w /\ w <> [].

  (** Names between commas. *)
  Inductive names_text : list Z -> list bytes -> Prop :=
  | nm_last sp1 w sp2 : spaces sp1 -> word w -> spaces sp2 -> names_text (sp1 ++ w ++ sp2) [encode w]
  | nm_more sp1 w sp2 w' ns : spaces sp1 -> word w -> spaces sp2 -> names_text w' ns -> names_text (sp1 ++ w ++ sp2 ++ 44 :: w') (encode w :: ns).

  (** The length of a string type; it is cut to 32 bits. *)
  Inductive length_text (ct : coltype) : list Z -> coltype -> bool -> Prop :=
  | le_none : length_text ct [] ct false
  | le_some sp1 sp2 ds sp3 i : ct_type ct = StringType \/ ct_type ct = BytesType -> spaces sp1 -> spaces sp2 -> spaces sp3 ->
      ds <> [] -> Forall (fun r => x_is_digit r = true) ds -> int_text (encode ds) i -> is_i64 i ->
      length_text ct (sp1 ++ 40 :: sp2 ++ ds ++ sp3 ++ [41])
        {| ct_type := ct_type ct; ct_size := i mod 2 ^ 32; ct_fixed := ct_fixed ct; ct_notnull := ct_notnull ct |} true.

  (** The words behind a type: the number of the column for each PRIMARY KEY, and
      whether there is NOT NULL.  [apart] tells that blanks are needed. *)
  Inductive flags_text (num : Z) : bool -> list Z -> list Z -> bool -> Prop :=
  | fl_none apart : flags_text num apart [] [] false
  | fl_primary (apart : bool) sp1 w1 sp2 w2 w key nn : spaces sp1 -> (apart = true -> sp1 <> []) -> keyword (str "PRIMARY") w1 ->
      some_spaces sp2 -> keyword (str "KEY") w2 -> flags_text num true w key nn ->
      flags_text num apart (sp1 ++ w1 ++ sp2 ++ w2 ++ w) (num :: key) nn
  | fl_notnull (apart : bool) sp1 w1 sp2 w2 w key nn : spaces sp1 -> (apart = true -> sp1 <> []) -> keyword (str "NOT") w1 ->
      some_spaces sp2 -> keyword (str "NULL") w2 -> flags_text num true w key nn ->
      flags_text num apart (sp1 ++ w1 ++ sp2 ++ w2 ++ w) key true.

  Definition column_text (num : Z) (w : list Z) (name : bytes) (ct : coltype) (key : list Z) : Prop :=
    exists sp0 w1 sp1 w2 k ct0 w3 ct1 sized w4 nn sp2,
      w = sp0 ++ w1 ++ sp1 ++ w2 ++ w3 ++ w4 ++ sp2 /\ spaces sp0 /\ word w1 /\ name = encode w1 /\ some_spaces sp1 /\
      keyword k w2 /\ In (k, ct0) type_names /\ length_text ct0 w3 ct1 sized /\ flags_text num (negb sized) w4 key nn /\ spaces sp2 /\
      ct = {| ct_type := ct_type ct1; ct_size := ct_size ct1; ct_fixed := ct_fixed ct1; ct_notnull := nn |}.

  Inductive columns_text : Z -> list Z -> list bytes -> list coltype -> list Z -> Prop :=
  | cl_last num w n ct key : column_text num w n ct key -> columns_text num w [n] [ct] key
  | cl_more num w n ct key w' ns cts keys : column_text num w n ct key -> columns_text (num + 1) w' ns cts keys ->
      columns_text num (w ++ 44 :: w') (n :: ns) (ct :: cts) (key ++ keys).
End Columns.
