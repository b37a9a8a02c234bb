(** The tests of the parser, run on the model.

    Written by tools/gotests.py from the test files of /repo. *)

From Verif Require Import ModelBase ModelIdent ModelSql ModelColumn ModelScanner ModelParser ModelPrint LemmasDemo LemmasDemoTyped LemmasDemoScan LemmasDemoParser CheckBase.
Import ListNotations.
Open Scope Z_scope.

(** The names that occur. *)
Definition all_names : list (bytes * bool) :=
  [((str "t"), false); ((str "c1"), false); ((str "c2"), false); ((str "c3"), false); ((str "c4"), false); ((str "c5"), false); ((str "c6"), false); ((str "c"), false); ((str "b1"), false); ((str "b2"), false); ((str "d1"), false); ((str "d2"), false); ((str "b3"), false); ((str "b4"), false); ((str "b5"), false); ((str "c1_primary"), false); ((str "c1_unique"), false); ((str "c2_unique"), false); ((str "c1_c2_primary"), false); ((str "c2_c1_unique"), false); ((str "con1"), false); ((str "con2"), false); ((str "not_null"), false); ((str "dflt"), false); ((str "check_1"), false); ((str "check_2"), false); ((str "t2"), false); ((str "t3"), false); ((str "p1"), false); ((str "foreign_1"), false); ((str "fkey"), false); ((str "p2"), false); ((str "p3"), false); ((str "idx"), false); ((str "tbl"), false); ((str "x"), false); ((str "i"), false); ((str "schema"), false); ((str "a1"), false); ((str "a2"), false); ((str "a"), false); ((str "t1"), false); ((str "s1"), false); ((str "v1"), false); ((str "d"), false); ((str "e"), false); ((str "f"), false); ((str "test"), false); ((str "path"), false); ((str "engine"), false); ((str "rtbl"), false); ((str "con"), false); ((str "tbl2"), false)].
(** Registered before a test. *)
Definition T : idtable := table_of all_names.
Definition name (s : bytes) : Z := snd (ID T s false).
Definition quoted (s : bytes) : Z := snd (ID T s true).

(** What [Parse] returned for a text. *)
Definition first_stmt (text : list Z) : shown_ := hd GotStuck (demo_parses 1 (newParser T text)).

(** [TestParse], parser/parser_test.go:63-81. *)
Example TestParse :
  map first_stmt
  [(runes "create foobar");
   (runes "create temp index");
   (runes "create unique table");
   (runes "create table if not my-table");
   (runes "create table (my-table)");
   (runes "create table .my-table");
   (runes "create table my-schema.")] =
  [GotError; GotError; GotError; GotError; GotError; GotError; GotError].
Proof. vm_compute. reflexivity. Qed.

(** [TestCreateTable], parser/parser_test.go:83-804. *)
Example TestCreateTable :
  map first_stmt
  [(runes "create temp table t (c int)");
   (runes "create temporary table t (c int)");
   (runes "create table test ()");
   (runes "create table test (c)");
   (runes "create table (c int)");
   (runes "create table t (c int, c bool)");
   (runes "create table t (c int, d bool, c char(1))");
   (runes "create table t (c int) default");
   (runes "create table . (c int)");
   (runes "create table .t (c int)");
   (runes "create table d. (c int)");
   (runes "create table t (c int, )");
   (runes "create table t (c bool())");
   (runes "create table t (c bool(1))");
   (runes "create table t (c double())");
   (runes "create table t (c double(1,2,3))");
   (runes "create table t (c double(0))");
   (runes "create table t (c double(256))");
   (runes "create table t (c double(0,15))");
   (runes "create table t (c double(256,15))");
   (runes "create table t (c double(123,-1))");
   (runes "create table t (c double(123,31))");
   (runes "create table t (c int())");
   (runes "create table t (c int(1,2))");
   (runes "create table t (c int(0))");
   (runes "create table t (c int(256))");
   (runes "create table t (c char(1,2))");
   (runes "create table t (c char(-1))");
   (runes "create table t (c blob binary)");
   (runes "create table t (c int binary)");
   (runes "create table t (c bool binary)");
   (runes "create table t (c char(123) binary)");
   (runes "create table t (c double binary)");
   (runes "create table t (c char null)");
   (runes "create table t (c char null, d int)");
   (runes "create table t (c char not null not null)");
   (runes "create table t (c char default)");
   (runes "create table t (c char default, d int)");
   (runes "create table t (c int default 0 default 1)");
   (runes "create table t (c1 int2, c2 smallint, c3 int4, c4 integer, c5 bigint, c6 int8)");
   (runes "create table if not exists t (c int)");
   (runes "create table t (b1 bool, b2 boolean, d1 double, d2 double)");
   (runes "create table t (b1 binary, b2 varbinary(123), b3 blob, b4 bytes, b5 bytea)");
   (runes "create table t (b1 binary(123), b2 varbinary(456), b3 blob(789))");
   (runes "create table t (b1 bytea(456), b2 bytes(789))");
   (runes "create table t (c1 char, c2 varchar(123), c3 text)");
   (runes "create table t (c1 char(123), c2 varchar(456), c3 text(789))");
   (runes "create table t (c1 varchar(64) default 'abcd', c2 int default 123)");
   (runes "create table t (c1 boolean default true, c2 boolean not null)");
   (runes "create table t (c1 boolean default true not null,
c2 boolean not null default true)");
   (runes "create table t (c1 int primary, c2 bool)");
   (runes "create table t (c1 int unique primary key, c2 bool)");
   (runes "create table t (c1 int, c2 bool, primary)");
   (runes "create table t (c1 int, c2 bool, primary key)");
   (runes "create table t (c1 int, c2 bool, primary key ())");
   (runes "create table t (c1 int primary key, c2 bool, primary key (c1))");
   (runes "create table t (c1 int, c2 bool primary key, primary key (c1))");
   (runes "create table t (c1 int primary key, c2 bool)");
   (runes "create table t (c1 int unique, c2 bool)");
   (runes "create table t (c1 int, c2 bool, primary key (c1))");
   (runes "create table t (c1 int, c2 bool, primary key (c1 desc))");
   (runes "create table t (c1 int unique, c2 bool unique, primary key (c1 desc, c2 asc))");
   (runes "create table t (c1 int primary key, c2 bool, unique (c2, c1))");
   (runes "create table t (c1 int constraint con1 primary key, c2 bool,
constraint con2 unique (c2, c1))");
   (runes "create table t (c1 int constraint not_null not null,
c2 bool constraint dflt default true)");
   (runes "create table t (c1 int not null constraint not_null, c2 bool)");
   (runes "create table t (c1 int, c2 bool not null constraint not_null)");
   (runes "create table t (c1 int constraint c1 constraint c1 not null, c2 bool)");
   (runes "create table t (c1 int constraint c1, c2 bool)");
   (runes "create table t (c1 int constraint c2_c1_unique primary key, c2 bool,
unique (c2, c1))");
   (runes "create table t (c1 int primary key, c2 bool,
constraint c1_primary unique (c2, c1))");
   (runes "create table t (c1 int check(c1 > 1), check(c1 < c2), c2 int check(c2 > 2))");
   (runes "create table t (c1 int constraint check_1 not null constraint check_2 default 1,
c2 int check(true))");
   (runes "create table t (c1 int references t2 on update cascade,
c2 int references t3 (p1) on update set default on delete set null)");
   (runes "create table t (c1 int, c2 int, c3 int, c4 int constraint foreign_1 not null,
foreign key (c1, c2) references t2 on delete cascade,
constraint fkey foreign key (c3, c4, c2) references t3 (p1, p2, p3) on update no action)");
   (runes "create table t (c1 int, c2 int, c3 int, foreign key c1 references t2)");
   (runes "create table t (c1 int, c2 int, c3 int, foreign key (c1,) references t2)");
   (runes "create table t (c1 int, c2 int, c3 int, foreign key () references t2)");
   (runes "create table t (c1 int, c2 int, c3 int, foreign key references t2)");
   (runes "create table t (c1 int, c2 int, c3 int,
foreign key (c1, c2) references t2 p1)");
   (runes "create table t (c1 int, c2 int, c3 int,
foreign key (c1, c2) references t2 (p1,))");
   (runes "create table t (c1 int, c2 int, c3 int,
foreign key (c1, c2) t2 (p1, p2))");
   (runes "create table t (c1 int, c2 int, c3 int,
foreign (c1, c2) references t2 (p1, p2))");
   (runes "create table t (c1 int references t2 p1, c2 int, c3 int)");
   (runes "create table t (c1 int references t2 (p1, p2), c2 int, c3 int)");
   (runes "create table t (c1 int, c2 int, c3 int,
foreign key (c1) references t2 delete restrict)");
   (runes "create table t (c1 int, c2 int, c3 int,
foreign key (c1) references t2 on delete action)");
   (runes "create table t (c1 int, c2 int, c3 int,
foreign key (c1) references t2 on delete restrict on delete no action)");
   (runes "create table t (c1 int, c2 int, c3 int,
foreign key (c1) references t2 on delete restrict on update restrict on delete no action)");
   (runes "create table t (c1 int, c2 int, c3 int,
foreign key (c1) references t2 on delete set on update cascade)")] =
  [GotError;
   GotError;
   GotError;
   GotError;
   GotError;
   GotError;
   GotError;
   GotError;
   GotError;
   GotError;
   GotError;
   GotError;
   GotError;
   GotError;
   GotError;
   GotError;
   GotError;
   GotError;
   GotError;
   GotError;
   GotError;
   GotError;
   GotError;
   GotError;
   GotError;
   GotError;
   GotError;
   GotError;
   GotError;
   GotError;
   GotError;
   GotError;
   GotError;
   GotError;
   GotError;
   GotError;
   GotError;
   GotError;
   GotError;
   Got (Some (SCreateTable {| tn_database := 0; tn_schema := 0; tn_table := (name (str "t")) |} [(name (str "c1")); (name (str "c2")); (name (str "c3")); (name (str "c4")); (name (str "c5")); (name (str "c6"))] [{| ct_type := Int64Type; ct_size := 2; ct_fixed := false; ct_notnull := false |}; {| ct_type := Int64Type; ct_size := 2; ct_fixed := false; ct_notnull := false |}; {| ct_type := Int64Type; ct_size := 4; ct_fixed := false; ct_notnull := false |}; {| ct_type := Int64Type; ct_size := 4; ct_fixed := false; ct_notnull := false |}; {| ct_type := Int64Type; ct_size := 8; ct_fixed := false; ct_notnull := false |}; {| ct_type := Int64Type; ct_size := 8; ct_fixed := false; ct_notnull := false |}] [None; None; None; None; None; None] false [] []));
   Got (Some (SCreateTable {| tn_database := 0; tn_schema := 0; tn_table := (name (str "t")) |} [(name (str "c"))] [{| ct_type := Int64Type; ct_size := 4; ct_fixed := false; ct_notnull := false |}] [None] true [] []));
   Got (Some (SCreateTable {| tn_database := 0; tn_schema := 0; tn_table := (name (str "t")) |} [(name (str "b1")); (name (str "b2")); (name (str "d1")); (name (str "d2"))] [{| ct_type := BoolType; ct_size := 1; ct_fixed := false; ct_notnull := false |}; {| ct_type := BoolType; ct_size := 1; ct_fixed := false; ct_notnull := false |}; {| ct_type := Float64Type; ct_size := 8; ct_fixed := false; ct_notnull := false |}; {| ct_type := Float64Type; ct_size := 8; ct_fixed := false; ct_notnull := false |}] [None; None; None; None] false [] []));
   Got (Some (SCreateTable {| tn_database := 0; tn_schema := 0; tn_table := (name (str "t")) |} [(name (str "b1")); (name (str "b2")); (name (str "b3")); (name (str "b4")); (name (str "b5"))] [{| ct_type := BytesType; ct_size := 1; ct_fixed := true; ct_notnull := false |}; {| ct_type := BytesType; ct_size := 123; ct_fixed := false; ct_notnull := false |}; {| ct_type := BytesType; ct_size := 4294967294; ct_fixed := false; ct_notnull := false |}; {| ct_type := BytesType; ct_size := 4294967294; ct_fixed := false; ct_notnull := false |}; {| ct_type := BytesType; ct_size := 4294967294; ct_fixed := false; ct_notnull := false |}] [None; None; None; None; None] false [] []));
   Got (Some (SCreateTable {| tn_database := 0; tn_schema := 0; tn_table := (name (str "t")) |} [(name (str "b1")); (name (str "b2")); (name (str "b3"))] [{| ct_type := BytesType; ct_size := 123; ct_fixed := true; ct_notnull := false |}; {| ct_type := BytesType; ct_size := 456; ct_fixed := false; ct_notnull := false |}; {| ct_type := BytesType; ct_size := 789; ct_fixed := false; ct_notnull := false |}] [None; None; None] false [] []));
   Got (Some (SCreateTable {| tn_database := 0; tn_schema := 0; tn_table := (name (str "t")) |} [(name (str "b1")); (name (str "b2"))] [{| ct_type := BytesType; ct_size := 456; ct_fixed := false; ct_notnull := false |}; {| ct_type := BytesType; ct_size := 789; ct_fixed := false; ct_notnull := false |}] [None; None] false [] []));
   Got (Some (SCreateTable {| tn_database := 0; tn_schema := 0; tn_table := (name (str "t")) |} [(name (str "c1")); (name (str "c2")); (name (str "c3"))] [{| ct_type := StringType; ct_size := 1; ct_fixed := true; ct_notnull := false |}; {| ct_type := StringType; ct_size := 123; ct_fixed := false; ct_notnull := false |}; {| ct_type := StringType; ct_size := 4294967294; ct_fixed := false; ct_notnull := false |}] [None; None; None] false [] []));
   Got (Some (SCreateTable {| tn_database := 0; tn_schema := 0; tn_table := (name (str "t")) |} [(name (str "c1")); (name (str "c2")); (name (str "c3"))] [{| ct_type := StringType; ct_size := 123; ct_fixed := true; ct_notnull := false |}; {| ct_type := StringType; ct_size := 456; ct_fixed := false; ct_notnull := false |}; {| ct_type := StringType; ct_size := 789; ct_fixed := false; ct_notnull := false |}] [None; None; None] false [] []));
   Got (Some (SCreateTable {| tn_database := 0; tn_schema := 0; tn_table := (name (str "t")) |} [(name (str "c1")); (name (str "c2"))] [{| ct_type := StringType; ct_size := 64; ct_fixed := false; ct_notnull := false |}; {| ct_type := Int64Type; ct_size := 4; ct_fixed := false; ct_notnull := false |}] [(Some (Literal (VString (str "abcd")))); (Some (Literal (VInt 123)))] false [] []));
   Got (Some (SCreateTable {| tn_database := 0; tn_schema := 0; tn_table := (name (str "t")) |} [(name (str "c1")); (name (str "c2"))] [{| ct_type := BoolType; ct_size := 1; ct_fixed := false; ct_notnull := false |}; {| ct_type := BoolType; ct_size := 1; ct_fixed := false; ct_notnull := true |}] [(Some (Literal (VBool true))); None] false [] []));
   Got (Some (SCreateTable {| tn_database := 0; tn_schema := 0; tn_table := (name (str "t")) |} [(name (str "c1")); (name (str "c2"))] [{| ct_type := BoolType; ct_size := 1; ct_fixed := false; ct_notnull := true |}; {| ct_type := BoolType; ct_size := 1; ct_fixed := false; ct_notnull := true |}] [(Some (Literal (VBool true))); (Some (Literal (VBool true)))] false [] []));
   GotError;
   GotError;
   GotError;
   GotError;
   GotError;
   GotError;
   GotError;
   Got (Some (SCreateTable {| tn_database := 0; tn_schema := 0; tn_table := (name (str "t")) |} [(name (str "c1")); (name (str "c2"))] [{| ct_type := Int64Type; ct_size := 4; ct_fixed := false; ct_notnull := false |}; {| ct_type := BoolType; ct_size := 1; ct_fixed := false; ct_notnull := false |}] [None; None] false [{| con_type := PrimaryConstraint; con_name := (name (str "c1_primary")); con_colnum := (-1); con_key := {| ik_unique := true; ik_columns := [(name (str "c1"))]; ik_reverse := [false] |}; con_check := None |}] []));
   Got (Some (SCreateTable {| tn_database := 0; tn_schema := 0; tn_table := (name (str "t")) |} [(name (str "c1")); (name (str "c2"))] [{| ct_type := Int64Type; ct_size := 4; ct_fixed := false; ct_notnull := false |}; {| ct_type := BoolType; ct_size := 1; ct_fixed := false; ct_notnull := false |}] [None; None] false [{| con_type := UniqueConstraint; con_name := (name (str "c1_unique")); con_colnum := (-1); con_key := {| ik_unique := true; ik_columns := [(name (str "c1"))]; ik_reverse := [false] |}; con_check := None |}] []));
   Got (Some (SCreateTable {| tn_database := 0; tn_schema := 0; tn_table := (name (str "t")) |} [(name (str "c1")); (name (str "c2"))] [{| ct_type := Int64Type; ct_size := 4; ct_fixed := false; ct_notnull := false |}; {| ct_type := BoolType; ct_size := 1; ct_fixed := false; ct_notnull := false |}] [None; None] false [{| con_type := PrimaryConstraint; con_name := (name (str "c1_primary")); con_colnum := (-1); con_key := {| ik_unique := true; ik_columns := [(name (str "c1"))]; ik_reverse := [false] |}; con_check := None |}] []));
   Got (Some (SCreateTable {| tn_database := 0; tn_schema := 0; tn_table := (name (str "t")) |} [(name (str "c1")); (name (str "c2"))] [{| ct_type := Int64Type; ct_size := 4; ct_fixed := false; ct_notnull := false |}; {| ct_type := BoolType; ct_size := 1; ct_fixed := false; ct_notnull := false |}] [None; None] false [{| con_type := PrimaryConstraint; con_name := (name (str "c1_primary")); con_colnum := (-1); con_key := {| ik_unique := true; ik_columns := [(name (str "c1"))]; ik_reverse := [true] |}; con_check := None |}] []));
   Got (Some (SCreateTable {| tn_database := 0; tn_schema := 0; tn_table := (name (str "t")) |} [(name (str "c1")); (name (str "c2"))] [{| ct_type := Int64Type; ct_size := 4; ct_fixed := false; ct_notnull := false |}; {| ct_type := BoolType; ct_size := 1; ct_fixed := false; ct_notnull := false |}] [None; None] false [{| con_type := UniqueConstraint; con_name := (name (str "c1_unique")); con_colnum := (-1); con_key := {| ik_unique := true; ik_columns := [(name (str "c1"))]; ik_reverse := [false] |}; con_check := None |}; {| con_type := UniqueConstraint; con_name := (name (str "c2_unique")); con_colnum := (-1); con_key := {| ik_unique := true; ik_columns := [(name (str "c2"))]; ik_reverse := [false] |}; con_check := None |}; {| con_type := PrimaryConstraint; con_name := (name (str "c1_c2_primary")); con_colnum := (-1); con_key := {| ik_unique := true; ik_columns := [(name (str "c1")); (name (str "c2"))]; ik_reverse := [true; false] |}; con_check := None |}] []));
   Got (Some (SCreateTable {| tn_database := 0; tn_schema := 0; tn_table := (name (str "t")) |} [(name (str "c1")); (name (str "c2"))] [{| ct_type := Int64Type; ct_size := 4; ct_fixed := false; ct_notnull := false |}; {| ct_type := BoolType; ct_size := 1; ct_fixed := false; ct_notnull := false |}] [None; None] false [{| con_type := PrimaryConstraint; con_name := (name (str "c1_primary")); con_colnum := (-1); con_key := {| ik_unique := true; ik_columns := [(name (str "c1"))]; ik_reverse := [false] |}; con_check := None |}; {| con_type := UniqueConstraint; con_name := (name (str "c2_c1_unique")); con_colnum := (-1); con_key := {| ik_unique := true; ik_columns := [(name (str "c2")); (name (str "c1"))]; ik_reverse := [false; false] |}; con_check := None |}] []));
   Got (Some (SCreateTable {| tn_database := 0; tn_schema := 0; tn_table := (name (str "t")) |} [(name (str "c1")); (name (str "c2"))] [{| ct_type := Int64Type; ct_size := 4; ct_fixed := false; ct_notnull := false |}; {| ct_type := BoolType; ct_size := 1; ct_fixed := false; ct_notnull := false |}] [None; None] false [{| con_type := PrimaryConstraint; con_name := (name (str "con1")); con_colnum := (-1); con_key := {| ik_unique := true; ik_columns := [(name (str "c1"))]; ik_reverse := [false] |}; con_check := None |}; {| con_type := UniqueConstraint; con_name := (name (str "con2")); con_colnum := (-1); con_key := {| ik_unique := true; ik_columns := [(name (str "c2")); (name (str "c1"))]; ik_reverse := [false; false] |}; con_check := None |}] []));
   Got (Some (SCreateTable {| tn_database := 0; tn_schema := 0; tn_table := (name (str "t")) |} [(name (str "c1")); (name (str "c2"))] [{| ct_type := Int64Type; ct_size := 4; ct_fixed := false; ct_notnull := true |}; {| ct_type := BoolType; ct_size := 1; ct_fixed := false; ct_notnull := false |}] [None; (Some (Literal (VBool true)))] false [{| con_type := NotNullConstraint; con_name := (name (str "not_null")); con_colnum := 0; con_key := {| ik_unique := false; ik_columns := []; ik_reverse := [] |}; con_check := None |}; {| con_type := DefaultConstraint; con_name := (name (str "dflt")); con_colnum := 1; con_key := {| ik_unique := false; ik_columns := []; ik_reverse := [] |}; con_check := None |}] []));
   GotError;
   GotError;
   GotError;
   GotError;
   GotError;
   GotError;
   Got (Some (SCreateTable {| tn_database := 0; tn_schema := 0; tn_table := (name (str "t")) |} [(name (str "c1")); (name (str "c2"))] [{| ct_type := Int64Type; ct_size := 4; ct_fixed := false; ct_notnull := false |}; {| ct_type := Int64Type; ct_size := 4; ct_fixed := false; ct_notnull := false |}] [None; None] false [{| con_type := CheckConstraint; con_name := 0; con_colnum := 0; con_key := {| ik_unique := false; ik_columns := []; ik_reverse := [] |}; con_check := (Some (BinaryExpr GreaterThanOp (Ref [(name (str "c1"))]) (Literal (VInt 1)))) |}; {| con_type := CheckConstraint; con_name := 0; con_colnum := (-1); con_key := {| ik_unique := false; ik_columns := []; ik_reverse := [] |}; con_check := (Some (BinaryExpr LessThanOp (Ref [(name (str "c1"))]) (Ref [(name (str "c2"))]))) |}; {| con_type := CheckConstraint; con_name := 0; con_colnum := 1; con_key := {| ik_unique := false; ik_columns := []; ik_reverse := [] |}; con_check := (Some (BinaryExpr GreaterThanOp (Ref [(name (str "c2"))]) (Literal (VInt 2)))) |}] []));
   Got (Some (SCreateTable {| tn_database := 0; tn_schema := 0; tn_table := (name (str "t")) |} [(name (str "c1")); (name (str "c2"))] [{| ct_type := Int64Type; ct_size := 4; ct_fixed := false; ct_notnull := true |}; {| ct_type := Int64Type; ct_size := 4; ct_fixed := false; ct_notnull := false |}] [(Some (Literal (VInt 1))); None] false [{| con_type := NotNullConstraint; con_name := (name (str "check_1")); con_colnum := 0; con_key := {| ik_unique := false; ik_columns := []; ik_reverse := [] |}; con_check := None |}; {| con_type := DefaultConstraint; con_name := (name (str "check_2")); con_colnum := 0; con_key := {| ik_unique := false; ik_columns := []; ik_reverse := [] |}; con_check := None |}; {| con_type := CheckConstraint; con_name := 0; con_colnum := 1; con_key := {| ik_unique := false; ik_columns := []; ik_reverse := [] |}; con_check := (Some (Literal (VBool true))) |}] []));
   Got (Some (SCreateTable {| tn_database := 0; tn_schema := 0; tn_table := (name (str "t")) |} [(name (str "c1")); (name (str "c2"))] [{| ct_type := Int64Type; ct_size := 4; ct_fixed := false; ct_notnull := false |}; {| ct_type := Int64Type; ct_size := 4; ct_fixed := false; ct_notnull := false |}] [None; None] false [] [{| fk_name := 0; fk_cols := [(name (str "c1"))]; fk_ref := {| tn_database := 0; tn_schema := 0; tn_table := (name (str "t2")) |}; fk_refcols := []; fk_ondelete := NoAction; fk_onupdate := Cascade |}; {| fk_name := 0; fk_cols := [(name (str "c2"))]; fk_ref := {| tn_database := 0; tn_schema := 0; tn_table := (name (str "t3")) |}; fk_refcols := [(name (str "p1"))]; fk_ondelete := SetNull; fk_onupdate := SetDefault |}]));
   Got (Some (SCreateTable {| tn_database := 0; tn_schema := 0; tn_table := (name (str "t")) |} [(name (str "c1")); (name (str "c2")); (name (str "c3")); (name (str "c4"))] [{| ct_type := Int64Type; ct_size := 4; ct_fixed := false; ct_notnull := false |}; {| ct_type := Int64Type; ct_size := 4; ct_fixed := false; ct_notnull := false |}; {| ct_type := Int64Type; ct_size := 4; ct_fixed := false; ct_notnull := false |}; {| ct_type := Int64Type; ct_size := 4; ct_fixed := false; ct_notnull := true |}] [None; None; None; None] false [{| con_type := NotNullConstraint; con_name := (name (str "foreign_1")); con_colnum := 3; con_key := {| ik_unique := false; ik_columns := []; ik_reverse := [] |}; con_check := None |}] [{| fk_name := 0; fk_cols := [(name (str "c1")); (name (str "c2"))]; fk_ref := {| tn_database := 0; tn_schema := 0; tn_table := (name (str "t2")) |}; fk_refcols := []; fk_ondelete := Cascade; fk_onupdate := NoAction |}; {| fk_name := (name (str "fkey")); fk_cols := [(name (str "c3")); (name (str "c4")); (name (str "c2"))]; fk_ref := {| tn_database := 0; tn_schema := 0; tn_table := (name (str "t3")) |}; fk_refcols := [(name (str "p1")); (name (str "p2")); (name (str "p3"))]; fk_ondelete := NoAction; fk_onupdate := NoAction |}]));
   GotError;
   GotError;
   GotError;
   GotError;
   GotError;
   GotError;
   GotError;
   GotError;
   GotError;
   GotError;
   GotError;
   GotError;
   GotError;
   GotError;
   GotError].
Proof. vm_compute. reflexivity. Qed.

(** [TestCreateIndex], parser/parser_test.go:806-859. *)
Example TestCreateIndex :
  map first_stmt
  [(runes "create index unique idx on tbl (c1)");
   (runes "create index idx tbl (c1)");
   (runes "create index tbl (c1)");
   (runes "create index idx on tbl using (c1 DESC, c2)");
   (runes "create index idx on tbl using tree (c1 DESC, c2)");
   (runes "create index idx on tbl (c1 DESC, c2)");
   (runes "create unique index if not exists idx on tbl using btree (c1)")] =
  [GotError;
   GotError;
   GotError;
   GotError;
   GotError;
   Got (Some (SCreateIndex (name (str "idx")) {| tn_database := 0; tn_schema := 0; tn_table := (name (str "tbl")) |} {| ik_unique := false; ik_columns := [(name (str "c1")); (name (str "c2"))]; ik_reverse := [true; false] |} false));
   Got (Some (SCreateIndex (name (str "idx")) {| tn_database := 0; tn_schema := 0; tn_table := (name (str "tbl")) |} {| ik_unique := true; ik_columns := [(name (str "c1"))]; ik_reverse := [false] |} true))].
Proof. vm_compute. reflexivity. Qed.

(** [TestInsertValues], parser/parser_test.go:861-926. *)
Example TestInsertValues :
  map first_stmt
  [(runes "insert into t");
   (runes "insert t values (1)");
   (runes "insert into t (1)");
   (runes "insert into t values (1");
   (runes "insert into t values 1)");
   (runes "insert into t values (1, )");
   (runes "insert into t values (1, 2),");
   (runes "insert into t values (1, 2) (3)");
   (runes "insert into t () values (1, 2)");
   (runes "insert into t (a values (1, 2)");
   (runes "insert into t (a, ) values (1, 2)");
   (runes "insert into t (a, a) values (1, 2)");
   (runes "insert into t (a, b, a) values (1, 2)");
   (runes "insert into t values (1, 'abc', true)");
   (runes "insert into t values (1, 'abc', true), (2, 'def', false)");
   (runes "insert into t values (NULL, 'abc', NULL)")] =
  [GotError;
   GotError;
   GotError;
   GotError;
   GotError;
   GotError;
   GotError;
   GotError;
   GotError;
   GotError;
   GotError;
   GotError;
   GotError;
   Got (Some (SInsertValues {| tn_database := 0; tn_schema := 0; tn_table := (name (str "t")) |} [] [[(Some (Literal (VInt 1))); (Some (Literal (VString (str "abc")))); (Some (Literal (VBool true)))]]));
   Got (Some (SInsertValues {| tn_database := 0; tn_schema := 0; tn_table := (name (str "t")) |} [] [[(Some (Literal (VInt 1))); (Some (Literal (VString (str "abc")))); (Some (Literal (VBool true)))]; [(Some (Literal (VInt 2))); (Some (Literal (VString (str "def")))); (Some (Literal (VBool false)))]]));
   Got (Some (SInsertValues {| tn_database := 0; tn_schema := 0; tn_table := (name (str "t")) |} [] [[(Some (Literal VNull)); (Some (Literal (VString (str "abc")))); (Some (Literal VNull))]]))].
Proof. vm_compute. reflexivity. Qed.

(** [TestSelect], parser/parser_test.go:1011-1655. *)
Example TestSelect :
  map first_stmt
  [(runes "select");
   (runes "select *, * from t");
   (runes "select c, * from t");
   (runes "select c, from t");
   (runes "select t.c, c, * from t");
   (runes "select *");
   (runes "select * from t");
   (runes "select * from t where x > 1");
   (runes "select * from t@i");
   (runes "select * from t@i where x > 1");
   (runes "select * from t where x = (show schema)");
   (runes "select * from (table t) as t");
   (runes "select c from t");
   (runes "select c1, c2, t.c3 from t");
   (runes "select t.*, c1, c2 from t");
   (runes "select c1, t.*, c2 from t");
   (runes "select c1, c2, t.* from t");
   (runes "select t2.c1 as a1, c2 as a2 from t");
   (runes "select t2.c1 a1, c2 a2 from t");
   (runes "select c1 + c2 as a from t");
   (runes "select t1.c1, t2.c2 from t1, t2");
   (runes "select * from t1, t2, t3");
   (runes "select * from t1 join t2 using (c1), t3");
   (runes "select * from (t1, t2) right join t3 using (c1)");
   (runes "select * from t1 inner join t2 on c1 > 5");
   (runes "select * from t1 inner join t2 using (c1, c2, c3)");
   (runes "select * from t1, t2 full outer join t3");
   (runes "select * from t1 inner join t2");
   (runes "select * from t1 inner join t2");
   (runes "select * from t1 inner join t2");
   (runes "select * from t1 inner join t2 on c1 > 5 using (c1, c2)");
   (runes "select * from t1 cross join t2 on c1 > 5");
   (runes "select * from t1 cross join t2 using (c1, c2)");
   (runes "select * from t1 inner join t2 using ()");
   (runes "select * from t1 inner join t2 using (c1, c1)");
   (runes "select * from (select * from t1) as s1 join t2 using (c1)");
   (runes "select * from t2 join (values (1, 'abc', true)) as v1 using (c1, c2)");
   (runes "select * from (select * from t1) s1 join (values (1, 'abc', true)) as v1 using (c1, c2)");
   (runes "select * from (values (1, 'abc', true)) as v1 (");
   (runes "select * from (values (1, 'abc', true)) as v1 )");
   (runes "select * from (values (1, 'abc', true)) as v1 (,");
   (runes "select * from (values (1, 'abc', true)) as v1 (a,)");
   (runes "select * from (values (1, 'abc', true)) as v1 (a b)");
   (runes "select * from (values (1, 'abc', true)) as v1");
   (runes "select * from (values (1, 'abc', true)) as v1 (c1, c2, c3)");
   (runes "select * from (select * from t1) as s1 (");
   (runes "select * from (select * from t1) as s1 )");
   (runes "select * from (select * from t1) as s1 (,");
   (runes "select * from (select * from t1) as s1 (a,)");
   (runes "select * from (select * from t1) as s1 (a b)");
   (runes "select * from (select * from t1) as s1");
   (runes "select * from (select * from t1) as s1 (c1)");
   (runes "select * from (select * from t1) as s1 (c1, c2)");
   (runes "select * from (select * from t1) as s1 (c1, c2, c3)");
   (runes "select c where c > 5 from t");
   (runes "select c from t group");
   (runes "select c from t group by");
   (runes "select c from t group by c where c > 5");
   (runes "select c from t group by c having");
   (runes "select c from t group by c, d, having c > 5");
   (runes "select c from t group by c");
   (runes "select c from t group by c, d, e + f");
   (runes "select c from t group by c having c > 1");
   (runes "select t1.c1, t2.c2 from (t1 cross join t2)");
   (runes "select * from ((t1 cross join t2) cross join t3)");
   (runes "select * from ((t1 join t2 using (c1)) cross join t3)");
   (runes "select * from ((t1 cross join t2) right join t3 using (c1))");
   (runes "select * from (t1 join t2 on c1 > 5)");
   (runes "select * from (t1 join t2 using (c1, c2, c3))")] =
  [GotError;
   GotError;
   GotError;
   GotError;
   GotError;
   Got (Some (SSelect None None None [] None []));
   Got (Some (SSelect None (Some (FromTableAlias {| tn_database := 0; tn_schema := 0; tn_table := (name (str "t")) |} 0)) None [] None []));
   Got (Some (SSelect None (Some (FromTableAlias {| tn_database := 0; tn_schema := 0; tn_table := (name (str "t")) |} 0)) (Some (BinaryExpr GreaterThanOp (Ref [(name (str "x"))]) (Literal (VInt 1)))) [] None []));
   Got (Some (SSelect None (Some (FromIndexAlias {| tn_database := 0; tn_schema := 0; tn_table := (name (str "t")) |} (name (str "i")) 0)) None [] None []));
   Got (Some (SSelect None (Some (FromIndexAlias {| tn_database := 0; tn_schema := 0; tn_table := (name (str "t")) |} (name (str "i")) 0)) (Some (BinaryExpr GreaterThanOp (Ref [(name (str "x"))]) (Literal (VInt 1)))) [] None []));
   Got (Some (SSelect None (Some (FromTableAlias {| tn_database := 0; tn_schema := 0; tn_table := (name (str "t")) |} 0)) (Some (BinaryExpr EqualOp (Ref [(name (str "x"))]) (Subquery ModelSql.Scalar AddOp None (SShow (name (str "schema")))))) [] None []));
   Got (Some (SSelect None (Some (FromStmt (SSelect None (Some (FromTableAlias {| tn_database := 0; tn_schema := 0; tn_table := (name (str "t")) |} 0)) None [] None []) (name (str "t")) [])) None [] None []));
   Got (Some (SSelect (Some [ExprResult (Ref [(name (str "c"))]) 0]) (Some (FromTableAlias {| tn_database := 0; tn_schema := 0; tn_table := (name (str "t")) |} 0)) None [] None []));
   Got (Some (SSelect (Some [ExprResult (Ref [(name (str "c1"))]) 0; ExprResult (Ref [(name (str "c2"))]) 0; ExprResult (Ref [(name (str "t")); (name (str "c3"))]) 0]) (Some (FromTableAlias {| tn_database := 0; tn_schema := 0; tn_table := (name (str "t")) |} 0)) None [] None []));
   Got (Some (SSelect (Some [TableResult (name (str "t")); ExprResult (Ref [(name (str "c1"))]) 0; ExprResult (Ref [(name (str "c2"))]) 0]) (Some (FromTableAlias {| tn_database := 0; tn_schema := 0; tn_table := (name (str "t")) |} 0)) None [] None []));
   Got (Some (SSelect (Some [ExprResult (Ref [(name (str "c1"))]) 0; TableResult (name (str "t")); ExprResult (Ref [(name (str "c2"))]) 0]) (Some (FromTableAlias {| tn_database := 0; tn_schema := 0; tn_table := (name (str "t")) |} 0)) None [] None []));
   Got (Some (SSelect (Some [ExprResult (Ref [(name (str "c1"))]) 0; ExprResult (Ref [(name (str "c2"))]) 0; TableResult (name (str "t"))]) (Some (FromTableAlias {| tn_database := 0; tn_schema := 0; tn_table := (name (str "t")) |} 0)) None [] None []));
   Got (Some (SSelect (Some [ExprResult (Ref [(name (str "t2")); (name (str "c1"))]) (name (str "a1")); ExprResult (Ref [(name (str "c2"))]) (name (str "a2"))]) (Some (FromTableAlias {| tn_database := 0; tn_schema := 0; tn_table := (name (str "t")) |} 0)) None [] None []));
   Got (Some (SSelect (Some [ExprResult (Ref [(name (str "t2")); (name (str "c1"))]) (name (str "a1")); ExprResult (Ref [(name (str "c2"))]) (name (str "a2"))]) (Some (FromTableAlias {| tn_database := 0; tn_schema := 0; tn_table := (name (str "t")) |} 0)) None [] None []));
   Got (Some (SSelect (Some [ExprResult (BinaryExpr AddOp (Ref [(name (str "c1"))]) (Ref [(name (str "c2"))])) (name (str "a"))]) (Some (FromTableAlias {| tn_database := 0; tn_schema := 0; tn_table := (name (str "t")) |} 0)) None [] None []));
   Got (Some (SSelect (Some [ExprResult (Ref [(name (str "t1")); (name (str "c1"))]) 0; ExprResult (Ref [(name (str "t2")); (name (str "c2"))]) 0]) (Some (FromJoin (FromTableAlias {| tn_database := 0; tn_schema := 0; tn_table := (name (str "t1")) |} 0) (FromTableAlias {| tn_database := 0; tn_schema := 0; tn_table := (name (str "t2")) |} 0) CrossJoin None [])) None [] None []));
   Got (Some (SSelect None (Some (FromJoin (FromJoin (FromTableAlias {| tn_database := 0; tn_schema := 0; tn_table := (name (str "t1")) |} 0) (FromTableAlias {| tn_database := 0; tn_schema := 0; tn_table := (name (str "t2")) |} 0) CrossJoin None []) (FromTableAlias {| tn_database := 0; tn_schema := 0; tn_table := (name (str "t3")) |} 0) CrossJoin None [])) None [] None []));
   Got (Some (SSelect None (Some (FromJoin (FromJoin (FromTableAlias {| tn_database := 0; tn_schema := 0; tn_table := (name (str "t1")) |} 0) (FromTableAlias {| tn_database := 0; tn_schema := 0; tn_table := (name (str "t2")) |} 0) InnerJoin None [(name (str "c1"))]) (FromTableAlias {| tn_database := 0; tn_schema := 0; tn_table := (name (str "t3")) |} 0) CrossJoin None [])) None [] None []));
   Got (Some (SSelect None (Some (FromJoin (FromJoin (FromTableAlias {| tn_database := 0; tn_schema := 0; tn_table := (name (str "t1")) |} 0) (FromTableAlias {| tn_database := 0; tn_schema := 0; tn_table := (name (str "t2")) |} 0) CrossJoin None []) (FromTableAlias {| tn_database := 0; tn_schema := 0; tn_table := (name (str "t3")) |} 0) RightJoin None [(name (str "c1"))])) None [] None []));
   Got (Some (SSelect None (Some (FromJoin (FromTableAlias {| tn_database := 0; tn_schema := 0; tn_table := (name (str "t1")) |} 0) (FromTableAlias {| tn_database := 0; tn_schema := 0; tn_table := (name (str "t2")) |} 0) InnerJoin (Some (BinaryExpr GreaterThanOp (Ref [(name (str "c1"))]) (Literal (VInt 5)))) [])) None [] None []));
   Got (Some (SSelect None (Some (FromJoin (FromTableAlias {| tn_database := 0; tn_schema := 0; tn_table := (name (str "t1")) |} 0) (FromTableAlias {| tn_database := 0; tn_schema := 0; tn_table := (name (str "t2")) |} 0) InnerJoin None [(name (str "c1")); (name (str "c2")); (name (str "c3"))])) None [] None []));
   GotError;
   GotError;
   GotError;
   GotError;
   GotError;
   GotError;
   GotError;
   GotError;
   GotError;
   Got (Some (SSelect None (Some (FromJoin (FromStmt (SSelect None (Some (FromTableAlias {| tn_database := 0; tn_schema := 0; tn_table := (name (str "t1")) |} 0)) None [] None []) (name (str "s1")) []) (FromTableAlias {| tn_database := 0; tn_schema := 0; tn_table := (name (str "t2")) |} 0) InnerJoin None [(name (str "c1"))])) None [] None []));
   Got (Some (SSelect None (Some (FromJoin (FromTableAlias {| tn_database := 0; tn_schema := 0; tn_table := (name (str "t2")) |} 0) (FromStmt (SValues [[(Literal (VInt 1)); (Literal (VString (str "abc"))); (Literal (VBool true))]]) (name (str "v1")) []) InnerJoin None [(name (str "c1")); (name (str "c2"))])) None [] None []));
   Got (Some (SSelect None (Some (FromJoin (FromStmt (SSelect None (Some (FromTableAlias {| tn_database := 0; tn_schema := 0; tn_table := (name (str "t1")) |} 0)) None [] None []) (name (str "s1")) []) (FromStmt (SValues [[(Literal (VInt 1)); (Literal (VString (str "abc"))); (Literal (VBool true))]]) (name (str "v1")) []) InnerJoin None [(name (str "c1")); (name (str "c2"))])) None [] None []));
   GotError;
   GotError;
   GotError;
   GotError;
   GotError;
   Got (Some (SSelect None (Some (FromStmt (SValues [[(Literal (VInt 1)); (Literal (VString (str "abc"))); (Literal (VBool true))]]) (name (str "v1")) [])) None [] None []));
   Got (Some (SSelect None (Some (FromStmt (SValues [[(Literal (VInt 1)); (Literal (VString (str "abc"))); (Literal (VBool true))]]) (name (str "v1")) [(name (str "c1")); (name (str "c2")); (name (str "c3"))])) None [] None []));
   GotError;
   GotError;
   GotError;
   GotError;
   GotError;
   Got (Some (SSelect None (Some (FromStmt (SSelect None (Some (FromTableAlias {| tn_database := 0; tn_schema := 0; tn_table := (name (str "t1")) |} 0)) None [] None []) (name (str "s1")) [])) None [] None []));
   Got (Some (SSelect None (Some (FromStmt (SSelect None (Some (FromTableAlias {| tn_database := 0; tn_schema := 0; tn_table := (name (str "t1")) |} 0)) None [] None []) (name (str "s1")) [(name (str "c1"))])) None [] None []));
   Got (Some (SSelect None (Some (FromStmt (SSelect None (Some (FromTableAlias {| tn_database := 0; tn_schema := 0; tn_table := (name (str "t1")) |} 0)) None [] None []) (name (str "s1")) [(name (str "c1")); (name (str "c2"))])) None [] None []));
   Got (Some (SSelect None (Some (FromStmt (SSelect None (Some (FromTableAlias {| tn_database := 0; tn_schema := 0; tn_table := (name (str "t1")) |} 0)) None [] None []) (name (str "s1")) [(name (str "c1")); (name (str "c2")); (name (str "c3"))])) None [] None []));
   GotError;
   GotError;
   GotError;
   GotError;
   GotError;
   GotError;
   Got (Some (SSelect (Some [ExprResult (Ref [(name (str "c"))]) 0]) (Some (FromTableAlias {| tn_database := 0; tn_schema := 0; tn_table := (name (str "t")) |} 0)) None [(Ref [(name (str "c"))])] None []));
   Got (Some (SSelect (Some [ExprResult (Ref [(name (str "c"))]) 0]) (Some (FromTableAlias {| tn_database := 0; tn_schema := 0; tn_table := (name (str "t")) |} 0)) None [(Ref [(name (str "c"))]); (Ref [(name (str "d"))]); (BinaryExpr AddOp (Ref [(name (str "e"))]) (Ref [(name (str "f"))]))] None []));
   Got (Some (SSelect (Some [ExprResult (Ref [(name (str "c"))]) 0]) (Some (FromTableAlias {| tn_database := 0; tn_schema := 0; tn_table := (name (str "t")) |} 0)) None [(Ref [(name (str "c"))])] (Some (BinaryExpr GreaterThanOp (Ref [(name (str "c"))]) (Literal (VInt 1)))) []));
   Got (Some (SSelect (Some [ExprResult (Ref [(name (str "t1")); (name (str "c1"))]) 0; ExprResult (Ref [(name (str "t2")); (name (str "c2"))]) 0]) (Some (FromJoin (FromTableAlias {| tn_database := 0; tn_schema := 0; tn_table := (name (str "t1")) |} 0) (FromTableAlias {| tn_database := 0; tn_schema := 0; tn_table := (name (str "t2")) |} 0) CrossJoin None [])) None [] None []));
   Got (Some (SSelect None (Some (FromJoin (FromJoin (FromTableAlias {| tn_database := 0; tn_schema := 0; tn_table := (name (str "t1")) |} 0) (FromTableAlias {| tn_database := 0; tn_schema := 0; tn_table := (name (str "t2")) |} 0) CrossJoin None []) (FromTableAlias {| tn_database := 0; tn_schema := 0; tn_table := (name (str "t3")) |} 0) CrossJoin None [])) None [] None []));
   Got (Some (SSelect None (Some (FromJoin (FromJoin (FromTableAlias {| tn_database := 0; tn_schema := 0; tn_table := (name (str "t1")) |} 0) (FromTableAlias {| tn_database := 0; tn_schema := 0; tn_table := (name (str "t2")) |} 0) InnerJoin None [(name (str "c1"))]) (FromTableAlias {| tn_database := 0; tn_schema := 0; tn_table := (name (str "t3")) |} 0) CrossJoin None [])) None [] None []));
   Got (Some (SSelect None (Some (FromJoin (FromJoin (FromTableAlias {| tn_database := 0; tn_schema := 0; tn_table := (name (str "t1")) |} 0) (FromTableAlias {| tn_database := 0; tn_schema := 0; tn_table := (name (str "t2")) |} 0) CrossJoin None []) (FromTableAlias {| tn_database := 0; tn_schema := 0; tn_table := (name (str "t3")) |} 0) RightJoin None [(name (str "c1"))])) None [] None []));
   Got (Some (SSelect None (Some (FromJoin (FromTableAlias {| tn_database := 0; tn_schema := 0; tn_table := (name (str "t1")) |} 0) (FromTableAlias {| tn_database := 0; tn_schema := 0; tn_table := (name (str "t2")) |} 0) InnerJoin (Some (BinaryExpr GreaterThanOp (Ref [(name (str "c1"))]) (Literal (VInt 5)))) [])) None [] None []));
   Got (Some (SSelect None (Some (FromJoin (FromTableAlias {| tn_database := 0; tn_schema := 0; tn_table := (name (str "t1")) |} 0) (FromTableAlias {| tn_database := 0; tn_schema := 0; tn_table := (name (str "t2")) |} 0) InnerJoin None [(name (str "c1")); (name (str "c2")); (name (str "c3"))])) None [] None []))].
Proof. vm_compute. reflexivity. Qed.

(** [TestValues], parser/parser_test.go:1657-1705. *)
Example TestValues :
  map first_stmt
  [(runes "values");
   (runes "values (");
   (runes "values ()");
   (runes "values (1");
   (runes "values (1, 2");
   (runes "values (1 2)");
   (runes "values (1, 2), (3)");
   (runes "values (1, 2, 3), (4, 5), (6, 7, 8)");
   (runes "values (1, 'abc', true)");
   (runes "values (1, 'abc', true), (2, 'def', false)")] =
  [GotError;
   GotError;
   GotError;
   GotError;
   GotError;
   GotError;
   GotError;
   GotError;
   Got (Some (SValues [[(Literal (VInt 1)); (Literal (VString (str "abc"))); (Literal (VBool true))]]));
   Got (Some (SValues [[(Literal (VInt 1)); (Literal (VString (str "abc"))); (Literal (VBool true))]; [(Literal (VInt 2)); (Literal (VString (str "def"))); (Literal (VBool false))]]))].
Proof. vm_compute. reflexivity. Qed.

(** [TestDelete], parser/parser_test.go:1707-1749. *)
Example TestDelete :
  map first_stmt
  [(runes "delete");
   (runes "delete t");
   (runes "delete from");
   (runes "delete from t1, t2");
   (runes "delete from t where");
   (runes "delete from t");
   (runes "delete from t where c > 1")] =
  [GotError;
   GotError;
   GotError;
   GotError;
   GotError;
   Got (Some (SDelete {| tn_database := 0; tn_schema := 0; tn_table := (name (str "t")) |} None));
   Got (Some (SDelete {| tn_database := 0; tn_schema := 0; tn_table := (name (str "t")) |} (Some (BinaryExpr GreaterThanOp (Ref [(name (str "c"))]) (Literal (VInt 1))))))].
Proof. vm_compute. reflexivity. Qed.

(** [TestUpdate], parser/parser_test.go:1751-1825. *)
Example TestUpdate :
  map first_stmt
  [(runes "update");
   (runes "update t");
   (runes "update t set");
   (runes "update set t c = 5");
   (runes "update t c = 5");
   (runes "update t set c = 5,");
   (runes "update t set c = 5, where");
   (runes "update t set c = 5 where");
   (runes "update t set where c = 6");
   (runes "update t set c = 5");
   (runes "update t set c = 0 where c > 1");
   (runes "update t set c = default where c > 1");
   (runes "update t set c1 = 1, c2 = 2, c3 = 3")] =
  [GotError;
   GotError;
   GotError;
   GotError;
   GotError;
   GotError;
   GotError;
   GotError;
   GotError;
   Got (Some (SUpdate {| tn_database := 0; tn_schema := 0; tn_table := (name (str "t")) |} [((name (str "c")), (Some (Literal (VInt 5))))] None));
   Got (Some (SUpdate {| tn_database := 0; tn_schema := 0; tn_table := (name (str "t")) |} [((name (str "c")), (Some (Literal (VInt 0))))] (Some (BinaryExpr GreaterThanOp (Ref [(name (str "c"))]) (Literal (VInt 1))))));
   Got (Some (SUpdate {| tn_database := 0; tn_schema := 0; tn_table := (name (str "t")) |} [((name (str "c")), None)] (Some (BinaryExpr GreaterThanOp (Ref [(name (str "c"))]) (Literal (VInt 1))))));
   Got (Some (SUpdate {| tn_database := 0; tn_schema := 0; tn_table := (name (str "t")) |} [((name (str "c1")), (Some (Literal (VInt 1)))); ((name (str "c2")), (Some (Literal (VInt 2)))); ((name (str "c3")), (Some (Literal (VInt 3))))] None))].
Proof. vm_compute. reflexivity. Qed.

(** [TestCreateDatabase], parser/parser_test.go:1827-1875. *)
Example TestCreateDatabase :
  map first_stmt
  [(runes "create database");
   (runes "create database test");
   (runes "create database test with");
   (runes "create database test with path");
   (runes "create database test with path = ");
   (runes "create database test with 'path' = value");
   (runes "create database test with create = value");
   (runes "create database test with path = 'string' engine");
   (runes "create database test with path = 'string' engine 'fast'")] =
  [GotError;
   Got (Some (SCreateDatabase (name (str "test")) []));
   GotError;
   GotError;
   GotError;
   GotError;
   GotError;
   GotError;
   Got (Some (SCreateDatabase (name (str "test")) [((name (str "path")), (str "string")); ((name (str "engine")), (str "fast"))]))].
Proof. vm_compute. reflexivity. Qed.

(** [TestAlterTable], parser/parser_test.go:1877-2027. *)
Example TestAlterTable :
  map first_stmt
  [(runes "alter table tbl");
   (runes "alter table exists tbl");
   (runes "alter table tbl add foreign key (c1, c2) references rtbl");
   (runes "alter table tbl add constraint con foreign key (c1) references rtbl");
   (runes "alter table tbl add constraint con1 foreign key (c1) references rtbl,
add constraint con2 foreign key (c2) references tbl2");
   (runes "alter table tbl add constraint con1 foreign key (c1) references rtbl,
add constraint con2 foreign key (c2) references tbl2, fail");
   (runes "alter table tbl drop constraint if exists con");
   (runes "alter table tbl add constraint con foreign key (c1) references rtbl,
alter column c1 drop default, alter c2 drop not null, drop constraint con");
   (runes "alter table tbl drop con");
   (runes "alter table tbl constraint if exists con");
   (runes "alter table tbl drop constraint if con");
   (runes "alter table tbl alter column drop default");
   (runes "alter table tbl alter c1 default");
   (runes "alter table tbl alter c1 drop null")] =
  [GotError;
   GotError;
   Got (Some (SAlterTable {| tn_database := 0; tn_schema := 0; tn_table := (name (str "tbl")) |} [AddForeignKey {| fk_name := 0; fk_cols := [(name (str "c1")); (name (str "c2"))]; fk_ref := {| tn_database := 0; tn_schema := 0; tn_table := (name (str "rtbl")) |}; fk_refcols := []; fk_ondelete := NoAction; fk_onupdate := NoAction |}]));
   Got (Some (SAlterTable {| tn_database := 0; tn_schema := 0; tn_table := (name (str "tbl")) |} [AddForeignKey {| fk_name := (name (str "con")); fk_cols := [(name (str "c1"))]; fk_ref := {| tn_database := 0; tn_schema := 0; tn_table := (name (str "rtbl")) |}; fk_refcols := []; fk_ondelete := NoAction; fk_onupdate := NoAction |}]));
   Got (Some (SAlterTable {| tn_database := 0; tn_schema := 0; tn_table := (name (str "tbl")) |} [AddForeignKey {| fk_name := (name (str "con1")); fk_cols := [(name (str "c1"))]; fk_ref := {| tn_database := 0; tn_schema := 0; tn_table := (name (str "rtbl")) |}; fk_refcols := []; fk_ondelete := NoAction; fk_onupdate := NoAction |}; AddForeignKey {| fk_name := (name (str "con2")); fk_cols := [(name (str "c2"))]; fk_ref := {| tn_database := 0; tn_schema := 0; tn_table := (name (str "tbl2")) |}; fk_refcols := []; fk_ondelete := NoAction; fk_onupdate := NoAction |}]));
   GotError;
   Got (Some (SAlterTable {| tn_database := 0; tn_schema := 0; tn_table := (name (str "tbl")) |} [DropConstraint (name (str "con")) true]));
   Got (Some (SAlterTable {| tn_database := 0; tn_schema := 0; tn_table := (name (str "tbl")) |} [AddForeignKey {| fk_name := (name (str "con")); fk_cols := [(name (str "c1"))]; fk_ref := {| tn_database := 0; tn_schema := 0; tn_table := (name (str "rtbl")) |}; fk_refcols := []; fk_ondelete := NoAction; fk_onupdate := NoAction |}; DropColumnConstraint (name (str "c1")) DefaultConstraint; DropColumnConstraint (name (str "c2")) NotNullConstraint; DropConstraint (name (str "con")) false]));
   GotError;
   GotError;
   GotError;
   GotError;
   GotError;
   GotError].
Proof. vm_compute. reflexivity. Qed.

(** [ParseExpr], and the text of what it returned. *)
Definition expr_text (text : list Z) : option printed :=
  match ParseExpr (newParser T text) with Done e p => Some (exprString (s_ids (p_scanner p)) e) | _ => None end.

(** [TestParseExpr], parser/parser_test.go:928-1009. *)
Example TestParseExpr :
  map expr_text
  [(runes "1 * 2 - 3 = 4");
   (runes "1 / 2 * 3 - 5");
   (runes "1 - 2 * (3 + 4) + 5");
   (runes "1 - (2 + 3) * 4 + 5");
   (runes "1 + 2 = 3 * 4 - 5 * 6");
   (runes "NOT 12 AND 1 OR 3");
   (runes "- 1 * 2 + 3");
   (runes "- 1 * 2");
   (runes "12 % 34 + 56");
   (runes "12 == 34 OR 56 != 78");
   (runes "12 + 34 << 56 + 78");
   (runes "abc");
   (runes "abc.def");
   (runes "abc. def . ghi .jkl");
   (runes "abc(1 + 2)");
   (runes "abc()");
   (runes "abc(1 + 2, def() * 3)");
   (runes "c1 * 10 = c2 AND c2 * 10 = c3");
   (runes "1 + 2 - 3");
   (runes "12 / 4 * 3");
   (runes "1 - 2 + 3");
   (runes "12 * 4 / 3");
   (runes "- 2 * 3");
   (runes "- (2 * 3)");
   (runes "1 + 2 * 3");
   (runes "1 * 2 + 3 / - 4");
   (runes "count(*)");
   (runes "count(123)");
   (runes "count(1,23,456)");
   (runes "x AND y AND z");
   (runes "x * y / z");
   (runes "123 + (select * from t)");
   (runes "(values (1)) + (show schema)");
   (runes "exists(show schema) and c1");
   (runes "c1 in (select * from tbl1)");
   (runes "(c1 + c2) not in (values (1), (2), (3))");
   (runes "c1 > some(select * from t1)");
   (runes "c1 <= all(select c1 from t1)");
   (runes "1 *");
   (runes "(1 * 2");
   (runes "(*)");
   (runes "abc.123");
   (runes "((1 + 2) * 3");
   (runes "abc(123,");
   (runes "abc(*)");
   (runes "exists()");
   (runes "exists(1 + 2)");
   (runes "exists(select * show schema)");
   (runes "c1 in (1, 2, 3)");
   (runes "c1 in (select * from tbl1, select * from tbl2)");
   (runes "c1 not in (1, 2, 3)");
   (runes "(c1 not (1, 2, 3))");
   (runes "(c1 all = (select * from t1))");
   (runes "(c1 + any(select c2 from t1)")] =
  [Some (PText (str "(((1 * 2) - 3) == 4)"));
   Some (PText (str "(((1 / 2) * 3) - 5)"));
   Some (PText (str "((1 - (2 * (3 + 4))) + 5)"));
   Some (PText (str "((1 - ((2 + 3) * 4)) + 5)"));
   Some (PText (str "((1 + 2) == ((3 * 4) - (5 * 6)))"));
   Some (PText (str "(((NOT 12) AND 1) OR 3)"));
   Some (PText (str "(((- 1) * 2) + 3)"));
   Some (PText (str "((- 1) * 2)"));
   Some (PText (str "((12 % 34) + 56)"));
   Some (PText (str "((12 == 34) OR (56 != 78))"));
   Some (PText (str "((12 + 34) << (56 + 78))"));
   Some (PText (str "abc"));
   Some (PText (str "abc.def"));
   Some (PText (str "abc.def.ghi.jkl"));
   Some (PText (str "abc((1 + 2))"));
   Some (PText (str "abc()"));
   Some (PText (str "abc((1 + 2), (def() * 3))"));
   Some (PText (str "(((c1 * 10) == c2) AND ((c2 * 10) == c3))"));
   Some (PText (str "((1 + 2) - 3)"));
   Some (PText (str "((12 / 4) * 3)"));
   Some (PText (str "((1 - 2) + 3)"));
   Some (PText (str "((12 * 4) / 3)"));
   Some (PText (str "((- 2) * 3)"));
   Some (PText (str "(- (2 * 3))"));
   Some (PText (str "(1 + (2 * 3))"));
   Some (PText (str "((1 * 2) + (3 / (- 4)))"));
   Some (PText (str "count_all()"));
   Some (PText (str "count(123)"));
   Some (PText (str "count(1, 23, 456)"));
   Some (PText (str "((x AND y) AND z)"));
   Some (PText (str "((x * y) / z)"));
   Some (PText (str "(123 + (SELECT * FROM t))"));
   Some (PText (str "((VALUES (1)) + (SHOW SCHEMA))"));
   Some (PText (str "(EXISTS(SHOW SCHEMA) AND c1)"));
   Some (PText (str "c1 == ANY(SELECT * FROM tbl1)"));
   Some (PText (str "(c1 + c2) != ALL(VALUES (1), (2), (3))"));
   Some (PText (str "c1 > ANY(SELECT * FROM t1)"));
   Some (PText (str "c1 <= ALL(SELECT c1 FROM t1)"));
   None;
   None;
   None;
   None;
   None;
   None;
   None;
   None;
   None;
   None;
   None;
   None;
   None;
   None;
   None;
   None].
Proof. vm_compute. reflexivity. Qed.
