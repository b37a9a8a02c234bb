(** The tests of the text of statements, run on the model.

    Written by tools/gotests.py from the test files of /repo. *)

From Verif Require Import ModelBase ModelIdent ModelSql ModelColumn ModelParser ModelPrint LemmasDemo LemmasDemoTyped LemmasDemoScan CheckBase.
Import ListNotations.
Open Scope Z_scope.

(** The names that occur. *)
Definition all_names : list (bytes * bool) :=
  [((str "t"), false); ((str "c1"), false); ((str "c2"), false); ((str "c3"), false); ((str "c4"), false); ((str "db"), false); ((str "sc"), false); ((str "tbl"), false); ((str "alias"), false); ((str "vals"), false); ((str "idx"), false); ((str "name"), false); ((str "flag"), false); ((str "i"), false); ((str "a2"), false); ((str "c"), false); ((str "d"), false); ((str "e"), false); ((str "f"), false); ((str "t1"), false); ((str "t2"), false); ((str "t3"), false); ((str "xyz"), false); ((str "mno"), false); ((str "abc"), false); ((str "foreign_1"), false); ((str "foreign_2"), false); ((str "fkey"), false); ((str "p1"), false); ((str "p2"), false); ((str "p3"), false); ((str "def"), false); ((str "ghijk"), false); ((str "jkl"), false); ((str "fk_1"), false); ((str "tbl2"), false); ((str "d2"), false); ((str "b2"), false); ((str "tbl1"), false); ((str "a1"), false); ((str "a3"), false); ((str "b3"), false); ((str "d3"), false); ((str "b1"), false); ((str "d1"), false); ((str "s"), false); ((str "option"), false); ((str "scm"), false); ((str "rtbl"), false); ((str "con"), false); ((str "con1"), false); ((str "con2"), false)].
(** Registered before a test. *)
Definition T : idtable := table_of all_names.
Definition name (s : bytes) : Z := snd (ID T s false).
Definition quoted (s : bytes) : Z := snd (ID T s true).

(** [TestInsert], parser/sql/query_test.go:18-136. *)
Example TestInsert :
  map (stmtString T)
  [(SInsertValues {| tn_database := 0; tn_schema := 0; tn_table := (name (str "t")) |} [(name (str "c1")); (name (str "c2")); (name (str "c3")); (name (str "c4"))] [[(Some (Literal (VNull))); (Some (Literal (VNull))); (Some (Literal (VNull))); (Some (Literal (VNull)))]]);
   (SInsertValues {| tn_database := 0; tn_schema := 0; tn_table := (name (str "t")) |} [] [[(Some (Literal (VNull))); (Some (Literal (VNull))); (Some (Literal (VNull))); (Some (Literal (VNull)))]]);
   (SInsertValues {| tn_database := 0; tn_schema := 0; tn_table := (name (str "t")) |} [] [[(Some (Literal (VBool true))); (Some (Literal (VString (str "abcd")))); (Some (Literal (VFloat 4638387860618067575))); (Some (Literal (VInt 789)))]]);
   (SInsertValues {| tn_database := 0; tn_schema := 0; tn_table := (name (str "t")) |} [(name (str "c1")); (name (str "c2"))] [[(Some (Literal (VBool false))); (Some (Literal (VInt 123)))]; [(Some (Literal (VNull))); (Some (Literal (VInt 456)))]]);
   (SInsertValues {| tn_database := 0; tn_schema := 0; tn_table := (name (str "t")) |} [(name (str "c1")); (name (str "c2")); (name (str "c3")); (name (str "c4"))] [[(Some (Literal (VBool false))); (Some (Literal (VString (str "efghi")))); (Some (Literal (VFloat 4651898712276737196))); (Some (Literal (VInt 321)))]]);
   (SInsertValues {| tn_database := 0; tn_schema := 0; tn_table := (name (str "t")) |} [(name (str "c1"))] [[(Some (Literal (VString (str "123"))))]]);
   (SInsertValues {| tn_database := 0; tn_schema := 0; tn_table := (name (str "t")) |} [(name (str "c1"))] [[(Some (Literal (VString (str "123.456"))))]]);
   (SInsertValues {| tn_database := 0; tn_schema := 0; tn_table := (name (str "t")) |} [(name (str "c1")); (name (str "c2"))] [[(Some (Literal (VNull))); (Some (Literal (VFloat 4638387860618067575)))]]);
   (SInsertValues {| tn_database := 0; tn_schema := 0; tn_table := (name (str "t")) |} [] [[(Some (Literal (VBool true))); (Some (Literal (VBool false)))]])] =
  [PText (str "INSERT INTO t (c1, c2, c3, c4) VALUES (NULL, NULL, NULL, NULL)");
   PText (str "INSERT INTO t VALUES (NULL, NULL, NULL, NULL)");
   PText (str "INSERT INTO t VALUES (true, 'abcd', 123.456, 789)");
   PText (str "INSERT INTO t (c1, c2) VALUES (false, 123), (NULL, 456)");
   PText (str "INSERT INTO t (c1, c2, c3, c4) VALUES (false, 'efghi', 987.654, 321)");
   PText (str "INSERT INTO t (c1) VALUES ('123')");
   PText (str "INSERT INTO t (c1) VALUES ('123.456')");
   PText (str "INSERT INTO t (c1, c2) VALUES (NULL, 123.456)");
   PText (str "INSERT INTO t VALUES (true, false)")].
Proof. vm_compute. reflexivity. Qed.

(** [TestValues], parser/sql/query_test.go:138-191. *)
Example TestValues :
  map (stmtString T)
  [(SValues [[(Literal (VInt 1)); (Literal (VString (str "abc"))); (Literal (VBool true)); (Literal (VNull))]]);
   (SValues [[(Literal (VInt 1)); (Literal (VString (str "abc"))); (Literal (VBool true))]; [(Literal (VInt 2)); (Literal (VString (str "def"))); (Literal (VBool false))]; [(Literal (VInt 3)); (Literal (VString (str "ghi"))); (Literal (VBool true))]; [(Literal (VInt 4)); (Literal (VString (str "jkl"))); (Literal (VBool false))]])] =
  [PText (str "VALUES (1, 'abc', true, NULL)");
   PText (str "VALUES (1, 'abc', true), (2, 'def', false), (3, 'ghi', true), (4, 'jkl', false)")].
Proof. vm_compute. reflexivity. Qed.

(** [TestSelect], parser/sql/query_test.go:193-479. *)
Example TestSelect :
  map (stmtString T)
  [(SSelect None (Some (FromTableAlias {| tn_database := (name (str "db")); tn_schema := (name (str "sc")); tn_table := (name (str "tbl")) |} (name (str "alias")))) None [] None []);
   (SSelect None (Some (FromStmt (SValues [[(Literal (VInt 1)); (Literal (VString (str "abc"))); (Literal (VBool true)); (Literal (VNull))]]) (name (str "vals")) [(name (str "c1")); (name (str "c2")); (name (str "c3")); (name (str "c4"))])) None [] None []);
   (SSelect None (Some (FromStmt (SValues [[(Literal (VInt 1)); (Literal (VString (str "abc"))); (Literal (VBool true))]; [(Literal (VInt 2)); (Literal (VString (str "def"))); (Literal (VBool false))]; [(Literal (VInt 3)); (Literal (VString (str "ghi"))); (Literal (VBool true))]; [(Literal (VInt 4)); (Literal (VString (str "jkl"))); (Literal (VBool false))]]) (name (str "vals")) [(name (str "idx")); (name (str "name")); (name (str "flag"))])) None [] None []);
   (SSelect None (Some (FromStmt (SValues [[(Literal (VNull)); (Literal (VNull)); (Literal (VNull))]]) (name (str "vals")) [(name (str "c1")); (name (str "c2")); (name (str "c3"))])) (Some (Literal (VBool false))) [] None []);
   (SSelect None (Some (FromIndexAlias {| tn_database := 0; tn_schema := 0; tn_table := (name (str "t")) |} (name (str "i")) 0)) None [] None []);
   (SSelect (Some [TableResult (name (str "t")); ExprResult (Ref [(name (str "c1"))]) 0; ExprResult (Ref [(name (str "c2"))]) (name (str "a2"))]) (Some (FromTableAlias {| tn_database := 0; tn_schema := 0; tn_table := (name (str "t")) |} 0)) None [] None []);
   (SSelect (Some [ExprResult (Ref [(name (str "c"))]) 0]) (Some (FromTableAlias {| tn_database := 0; tn_schema := 0; tn_table := (name (str "t")) |} 0)) None [(Ref [(name (str "c"))])] None []);
   (SSelect (Some [ExprResult (Ref [(name (str "c"))]) 0]) (Some (FromTableAlias {| tn_database := 0; tn_schema := 0; tn_table := (name (str "t")) |} 0)) None [(Ref [(name (str "c"))]); (Ref [(name (str "d"))]); (BinaryExpr AddOp (Ref [(name (str "e"))]) (Ref [(name (str "f"))]))] None []);
   (SSelect (Some [ExprResult (Ref [(name (str "c"))]) 0]) (Some (FromTableAlias {| tn_database := 0; tn_schema := 0; tn_table := (name (str "t")) |} 0)) None [(Ref [(name (str "c"))])] (Some (BinaryExpr GreaterThanOp (Ref [(name (str "c"))]) (Literal (VInt 1)))) []);
   (SSelect None (Some (FromTableAlias {| tn_database := 0; tn_schema := 0; tn_table := (name (str "t")) |} 0)) None [] None [((Ref [(name (str "c1"))]), false); ((Ref [(name (str "c2"))]), true)]);
   (SSelect (Some [ExprResult (Ref [(name (str "t1")); (name (str "c1"))]) 0; ExprResult (Ref [(name (str "t2")); (name (str "c2"))]) 0]) (Some (FromJoin (FromTableAlias {| tn_database := 0; tn_schema := 0; tn_table := (name (str "t1")) |} 0) (FromTableAlias {| tn_database := 0; tn_schema := 0; tn_table := (name (str "t2")) |} 0) CrossJoin None [])) None [] None []);
   (SSelect None (Some (FromJoin (FromJoin (FromTableAlias {| tn_database := 0; tn_schema := 0; tn_table := (name (str "t1")) |} 0) (FromTableAlias {| tn_database := 0; tn_schema := 0; tn_table := (name (str "t2")) |} 0) CrossJoin None []) (FromTableAlias {| tn_database := 0; tn_schema := 0; tn_table := (name (str "t3")) |} 0) CrossJoin None [])) None [] None []);
   (SSelect None (Some (FromJoin (FromJoin (FromTableAlias {| tn_database := 0; tn_schema := 0; tn_table := (name (str "t1")) |} 0) (FromTableAlias {| tn_database := 0; tn_schema := 0; tn_table := (name (str "t2")) |} 0) InnerJoin None [(name (str "c1"))]) (FromTableAlias {| tn_database := 0; tn_schema := 0; tn_table := (name (str "t3")) |} 0) CrossJoin None [])) None [] None []);
   (SSelect None (Some (FromJoin (FromJoin (FromTableAlias {| tn_database := 0; tn_schema := 0; tn_table := (name (str "t1")) |} 0) (FromTableAlias {| tn_database := 0; tn_schema := 0; tn_table := (name (str "t2")) |} 0) CrossJoin None []) (FromTableAlias {| tn_database := 0; tn_schema := 0; tn_table := (name (str "t3")) |} 0) RightJoin None [(name (str "c1"))])) None [] None []);
   (SSelect None (Some (FromJoin (FromTableAlias {| tn_database := 0; tn_schema := 0; tn_table := (name (str "t1")) |} 0) (FromTableAlias {| tn_database := 0; tn_schema := 0; tn_table := (name (str "t2")) |} 0) InnerJoin (Some (BinaryExpr GreaterThanOp (Ref [(name (str "c1"))]) (Literal (VInt 5)))) [])) None [] None []);
   (SSelect None (Some (FromJoin (FromTableAlias {| tn_database := 0; tn_schema := 0; tn_table := (name (str "t1")) |} 0) (FromTableAlias {| tn_database := 0; tn_schema := 0; tn_table := (name (str "t2")) |} 0) InnerJoin None [(name (str "c1")); (name (str "c2")); (name (str "c3"))])) None [] None [])] =
  [PText (str "SELECT * FROM db.sc.tbl AS alias");
   PText (str "SELECT * FROM (VALUES (1, 'abc', true, NULL)) AS vals (c1, c2, c3, c4)");
   PText (str "SELECT * FROM (VALUES (1, 'abc', true), (2, 'def', false), (3, 'ghi', true), (4, 'jkl', false)) AS vals (idx, name, flag)");
   PText (str "SELECT * FROM (VALUES (NULL, NULL, NULL)) AS vals (c1, c2, c3) WHERE false");
   PText (str "SELECT * FROM t@i");
   PText (str "SELECT t.*, c1, c2 AS a2 FROM t");
   PText (str "SELECT c FROM t GROUP BY c");
   PText (str "SELECT c FROM t GROUP BY c, d, (e + f)");
   PText (str "SELECT c FROM t GROUP BY c HAVING (c > 1)");
   PText (str "SELECT * FROM t ORDER BY c1 ASC, c2 DESC");
   PText (str "SELECT t1.c1, t2.c2 FROM (t1 CROSS JOIN t2)");
   PText (str "SELECT * FROM ((t1 CROSS JOIN t2) CROSS JOIN t3)");
   PText (str "SELECT * FROM ((t1 JOIN t2 USING (c1)) CROSS JOIN t3)");
   PText (str "SELECT * FROM ((t1 CROSS JOIN t2) RIGHT JOIN t3 USING (c1))");
   PText (str "SELECT * FROM (t1 JOIN t2 ON (c1 > 5))");
   PText (str "SELECT * FROM (t1 JOIN t2 USING (c1, c2, c3))")].
Proof. vm_compute. reflexivity. Qed.

(** [TestDelete], parser/sql/query_test.go:481-507. *)
Example TestDelete :
  map (stmtString T)
  [(SDelete {| tn_database := 0; tn_schema := 0; tn_table := (name (str "t")) |} None);
   (SDelete {| tn_database := 0; tn_schema := 0; tn_table := (name (str "t")) |} (Some (Literal (VBool true))))] =
  [PText (str "DELETE FROM t");
   PText (str "DELETE FROM t WHERE true")].
Proof. vm_compute. reflexivity. Qed.

(** [TestUpdate], parser/sql/query_test.go:509-543. *)
Example TestUpdate :
  map (stmtString T)
  [(SUpdate {| tn_database := 0; tn_schema := 0; tn_table := (name (str "t")) |} [((name (str "c1")), (Some (Literal (VInt 1)))); ((name (str "c2")), (Some (Literal (VInt 2)))); ((name (str "c3")), (Some (Literal (VInt 3))))] None);
   (SUpdate {| tn_database := 0; tn_schema := 0; tn_table := (name (str "t")) |} [((name (str "c1")), (Some (Literal (VInt 1))))] (Some (Literal (VBool true))))] =
  [PText (str "UPDATE t SET c1 = 1, c2 = 2, c3 = 3");
   PText (str "UPDATE t SET c1 = 1 WHERE true")].
Proof. vm_compute. reflexivity. Qed.

(** [TestCreateTable], parser/sql/datadef_test.go:10-80. *)
Example TestCreateTable :
  map (stmtString T)
  [(SCreateTable {| tn_database := (name (str "xyz")); tn_schema := (name (str "mno")); tn_table := (name (str "abc")) |} [] [] [] false [] []);
   (SCreateTable {| tn_database := 0; tn_schema := 0; tn_table := (name (str "t")) |} [(name (str "c1")); (name (str "c2")); (name (str "c3")); (name (str "c4"))] [{| ct_type := Int64Type; ct_size := 4; ct_fixed := false; ct_notnull := false |}; {| ct_type := Int64Type; ct_size := 4; ct_fixed := false; ct_notnull := false |}; {| ct_type := Int64Type; ct_size := 4; ct_fixed := false; ct_notnull := false |}; {| ct_type := Int64Type; ct_size := 4; ct_fixed := false; ct_notnull := true |}] (repeat None 4) false [{| con_type := NotNullConstraint; con_name := (name (str "foreign_1")); con_colnum := 3; con_key := {| ik_unique := false; ik_columns := []; ik_reverse := [] |}; con_check := None |}] [{| fk_name := (name (str "foreign_2")); fk_cols := [(name (str "c1")); (name (str "c2"))]; fk_ref := {| tn_database := 0; tn_schema := 0; tn_table := (name (str "t2")) |}; fk_refcols := []; fk_ondelete := NoAction; fk_onupdate := NoAction |}; {| fk_name := (name (str "fkey")); fk_cols := [(name (str "c3")); (name (str "c4")); (name (str "c2"))]; fk_ref := {| tn_database := 0; tn_schema := 0; tn_table := (name (str "t3")) |}; fk_refcols := [(name (str "p1")); (name (str "p2")); (name (str "p3"))]; fk_ondelete := NoAction; fk_onupdate := NoAction |}])] =
  [PText (str "CREATE TABLE xyz.mno.abc ()");
   PText (str "CREATE TABLE t (c1 INT, c2 INT, c3 INT, c4 INT NOT NULL, CONSTRAINT foreign_2 FOREIGN KEY (c1, c2) REFERENCES t2, CONSTRAINT fkey FOREIGN KEY (c3, c4, c2) REFERENCES t3 (p1, p2, p3))")].
Proof. vm_compute. reflexivity. Qed.

(** [TestDropTable], parser/sql/datadef_test.go:82-124. *)
Example TestDropTable :
  map (stmtString T)
  [(SDropTable false false [{| tn_database := (name (str "abc")); tn_schema := (name (str "def")); tn_table := (name (str "ghijk")) |}]);
   (SDropTable true false [{| tn_database := (name (str "abc")); tn_schema := (name (str "def")); tn_table := (name (str "ghijk")) |}; {| tn_database := 0; tn_schema := 0; tn_table := (name (str "jkl")) |}])] =
  [PText (str "DROP TABLE abc.def.ghijk");
   PText (str "DROP TABLE IF EXISTS abc.def.ghijk, jkl")].
Proof. vm_compute. reflexivity. Qed.

(** [TestForeignKey], parser/sql/datadef_test.go:126-275. *)
Example TestForeignKey :
  map (fkString T)
  [{| fk_name := (name (str "fk_1")); fk_cols := [(name (str "c1"))]; fk_ref := {| tn_database := (name (str "db")); tn_schema := (name (str "sc")); tn_table := (name (str "tbl2")) |}; fk_refcols := []; fk_ondelete := NoAction; fk_onupdate := NoAction |};
   {| fk_name := (name (str "fk_1")); fk_cols := [(name (str "c1"))]; fk_ref := {| tn_database := (name (str "db")); tn_schema := (name (str "sc")); tn_table := (name (str "tbl2")) |}; fk_refcols := [(name (str "d2"))]; fk_ondelete := NoAction; fk_onupdate := NoAction |};
   {| fk_name := (name (str "fk_1")); fk_cols := [(name (str "c2")); (name (str "b2"))]; fk_ref := {| tn_database := (name (str "db")); tn_schema := (name (str "sc")); tn_table := (name (str "tbl1")) |}; fk_refcols := []; fk_ondelete := NoAction; fk_onupdate := NoAction |};
   {| fk_name := (name (str "fk_1")); fk_cols := [(name (str "c2")); (name (str "b2"))]; fk_ref := {| tn_database := (name (str "db")); tn_schema := (name (str "sc")); tn_table := (name (str "tbl1")) |}; fk_refcols := [(name (str "a1")); (name (str "c1"))]; fk_ondelete := NoAction; fk_onupdate := NoAction |};
   {| fk_name := (name (str "fk_1")); fk_cols := [(name (str "b2")); (name (str "c2"))]; fk_ref := {| tn_database := (name (str "db")); tn_schema := (name (str "sc")); tn_table := (name (str "tbl1")) |}; fk_refcols := [(name (str "c1")); (name (str "a1"))]; fk_ondelete := NoAction; fk_onupdate := NoAction |};
   {| fk_name := (name (str "fk_1")); fk_cols := [(name (str "a3")); (name (str "b3")); (name (str "d3"))]; fk_ref := {| tn_database := (name (str "db")); tn_schema := (name (str "sc")); tn_table := (name (str "tbl1")) |}; fk_refcols := [(name (str "a1")); (name (str "b1")); (name (str "d1"))]; fk_ondelete := NoAction; fk_onupdate := NoAction |};
   {| fk_name := (name (str "fk_1")); fk_cols := [(name (str "a3")); (name (str "b3")); (name (str "d3"))]; fk_ref := {| tn_database := (name (str "db")); tn_schema := (name (str "sc")); tn_table := (name (str "tbl1")) |}; fk_refcols := [(name (str "b1")); (name (str "a1")); (name (str "d1"))]; fk_ondelete := NoAction; fk_onupdate := NoAction |};
   {| fk_name := (name (str "fk_1")); fk_cols := [(name (str "b3")); (name (str "d3")); (name (str "a3"))]; fk_ref := {| tn_database := (name (str "db")); tn_schema := (name (str "sc")); tn_table := (name (str "tbl1")) |}; fk_refcols := [(name (str "b1")); (name (str "d1")); (name (str "a1"))]; fk_ondelete := NoAction; fk_onupdate := NoAction |};
   {| fk_name := (name (str "fk_1")); fk_cols := [(name (str "b3")); (name (str "c3")); (name (str "d3"))]; fk_ref := {| tn_database := (name (str "db")); tn_schema := (name (str "sc")); tn_table := (name (str "tbl1")) |}; fk_refcols := [(name (str "b1")); (name (str "c1")); (name (str "d1"))]; fk_ondelete := NoAction; fk_onupdate := NoAction |}] =
  [PText (str "CONSTRAINT fk_1 FOREIGN KEY (c1) REFERENCES db.sc.tbl2");
   PText (str "CONSTRAINT fk_1 FOREIGN KEY (c1) REFERENCES db.sc.tbl2 (d2)");
   PText (str "CONSTRAINT fk_1 FOREIGN KEY (c2, b2) REFERENCES db.sc.tbl1");
   PText (str "CONSTRAINT fk_1 FOREIGN KEY (c2, b2) REFERENCES db.sc.tbl1 (a1, c1)");
   PText (str "CONSTRAINT fk_1 FOREIGN KEY (b2, c2) REFERENCES db.sc.tbl1 (c1, a1)");
   PText (str "CONSTRAINT fk_1 FOREIGN KEY (a3, b3, d3) REFERENCES db.sc.tbl1 (a1, b1, d1)");
   PText (str "CONSTRAINT fk_1 FOREIGN KEY (a3, b3, d3) REFERENCES db.sc.tbl1 (b1, a1, d1)");
   PText (str "CONSTRAINT fk_1 FOREIGN KEY (b3, d3, a3) REFERENCES db.sc.tbl1 (b1, d1, a1)");
   PText (str "CONSTRAINT fk_1 FOREIGN KEY (b3, c3, d3) REFERENCES db.sc.tbl1 (b1, c1, d1)")].
Proof. vm_compute. reflexivity. Qed.

(** [TestCreateIndex], parser/sql/datadef_test.go:277-320. *)
Example TestCreateIndex :
  map (stmtString T)
  [(SCreateIndex (name (str "idx")) {| tn_database := 0; tn_schema := (name (str "s")); tn_table := (name (str "t")) |} {| ik_unique := false; ik_columns := [(name (str "c1")); (name (str "c2"))]; ik_reverse := [false; true] |} false);
   (SCreateIndex (name (str "idx")) {| tn_database := 0; tn_schema := (name (str "s")); tn_table := (name (str "t")) |} {| ik_unique := true; ik_columns := [(name (str "c1"))]; ik_reverse := [false] |} true)] =
  [PText (str "CREATE INDEX idx ON s.t (c1 ASC, c2 DESC)");
   PText (str "CREATE UNIQUE INDEX IF NOT EXISTS idx ON s.t (c1 ASC)")].
Proof. vm_compute. reflexivity. Qed.

(** [TestCreateDatabase], parser/sql/datadef_test.go:322-344. *)
Example TestCreateDatabase :
  map (stmtString T)
  [(SCreateDatabase (name (str "db")) [((name (str "option")), (str "value"))])] =
  [PText (str "CREATE DATABASE db WITH option = value")].
Proof. vm_compute. reflexivity. Qed.

(** [TestCreateSchema], parser/sql/datadef_test.go:346-368. *)
Example TestCreateSchema :
  map (stmtString T)
  [(SCreateSchema {| sn_database := (name (str "db")); sn_schema := (name (str "scm")) |})] =
  [PText (str "CREATE SCHEMA db.scm")].
Proof. vm_compute. reflexivity. Qed.

(** [TestAlterTable], parser/sql/datadef_test.go:370-475. *)
Example TestAlterTable :
  map (stmtString T)
  [(SAlterTable {| tn_database := 0; tn_schema := 0; tn_table := (name (str "tbl")) |} [AddForeignKey {| fk_name := 0; fk_cols := [(name (str "c1")); (name (str "c2"))]; fk_ref := {| tn_database := 0; tn_schema := 0; tn_table := (name (str "rtbl")) |}; fk_refcols := []; fk_ondelete := NoAction; fk_onupdate := NoAction |}]);
   (SAlterTable {| tn_database := 0; tn_schema := 0; tn_table := (name (str "tbl")) |} [AddForeignKey {| fk_name := (name (str "con")); fk_cols := [(name (str "c1"))]; fk_ref := {| tn_database := 0; tn_schema := 0; tn_table := (name (str "rtbl")) |}; fk_refcols := []; fk_ondelete := NoAction; fk_onupdate := NoAction |}]);
   (SAlterTable {| tn_database := 0; tn_schema := 0; tn_table := (name (str "tbl")) |} [AddForeignKey {| fk_name := (name (str "con1")); fk_cols := [(name (str "c1"))]; fk_ref := {| tn_database := 0; tn_schema := 0; tn_table := (name (str "rtbl")) |}; fk_refcols := []; fk_ondelete := NoAction; fk_onupdate := NoAction |}; AddForeignKey {| fk_name := (name (str "con2")); fk_cols := [(name (str "c2"))]; fk_ref := {| tn_database := 0; tn_schema := 0; tn_table := (name (str "tbl2")) |}; fk_refcols := []; fk_ondelete := NoAction; fk_onupdate := NoAction |}]);
   (SAlterTable {| tn_database := 0; tn_schema := 0; tn_table := (name (str "tbl")) |} [DropConstraint (name (str "con")) true]);
   (SAlterTable {| tn_database := 0; tn_schema := 0; tn_table := (name (str "tbl")) |} [AddForeignKey {| fk_name := (name (str "con")); fk_cols := [(name (str "c1"))]; fk_ref := {| tn_database := 0; tn_schema := 0; tn_table := (name (str "rtbl")) |}; fk_refcols := []; fk_ondelete := NoAction; fk_onupdate := NoAction |}; DropColumnConstraint (name (str "c1")) DefaultConstraint; DropColumnConstraint (name (str "c2")) NotNullConstraint; DropConstraint (name (str "con")) false])] =
  [PText (str "ALTER TABLE tbl ADD CONSTRAINT FOREIGN KEY (c1, c2) REFERENCES rtbl");
   PText (str "ALTER TABLE tbl ADD CONSTRAINT con FOREIGN KEY (c1) REFERENCES rtbl");
   PText (str "ALTER TABLE tbl ADD CONSTRAINT con1 FOREIGN KEY (c1) REFERENCES rtbl, ADD CONSTRAINT con2 FOREIGN KEY (c2) REFERENCES tbl2");
   PText (str "ALTER TABLE tbl DROP CONSTRAINT IF EXISTS con");
   PText (str "ALTER TABLE tbl ADD CONSTRAINT con FOREIGN KEY (c1) REFERENCES rtbl, ALTER COLUMN c1 DROP DEFAULT, ALTER COLUMN c2 DROP NOT NULL, DROP CONSTRAINT con")].
Proof. vm_compute. reflexivity. Qed.

(** [TestDropIndex], parser/sql/datadef_test.go:477-509. *)
Example TestDropIndex :
  map (stmtString T)
  [(SDropIndex {| tn_database := (name (str "db")); tn_schema := (name (str "scm")); tn_table := (name (str "tbl")) |} (name (str "idx")) false);
   (SDropIndex {| tn_database := 0; tn_schema := 0; tn_table := (name (str "t")) |} (name (str "idx")) true)] =
  [PText (str "DROP INDEX idx ON db.scm.tbl");
   PText (str "DROP INDEX IF EXISTS idx ON t")].
Proof. vm_compute. reflexivity. Qed.

(** [TestDropDatabase], parser/sql/datadef_test.go:511-540. *)
Example TestDropDatabase :
  map (stmtString T)
  [(SDropDatabase false (name (str "db")) []);
   (SDropDatabase true (name (str "db")) [((name (str "option")), (str "value"))])] =
  [PText (str "DROP DATABASE db");
   PText (str "DROP DATABASE IF EXISTS db WITH option = value")].
Proof. vm_compute. reflexivity. Qed.

(** [TestDropSchema], parser/sql/datadef_test.go:542-573. *)
Example TestDropSchema :
  map (stmtString T)
  [(SDropSchema false {| sn_database := (name (str "db")); sn_schema := (name (str "scm")) |});
   (SDropSchema true {| sn_database := 0; sn_schema := (name (str "scm")) |})] =
  [PText (str "DROP SCHEMA db.scm");
   PText (str "DROP SCHEMA IF EXISTS scm")].
Proof. vm_compute. reflexivity. Qed.
