(** The tests of testutil, run on the model.

    Written by tools/gotests.py from the test files of /repo. *)

From Verif Require Import ModelBase ModelValue ModelColumn ModelIdent ModelPrint ModelTestutil LemmasDemo LemmasDemoTyped LemmasDemoScan CheckBase.
Import ListNotations.
Open Scope Z_scope.

(** [TestFormatRows], testutil/rows_test.go:10-34. *)
Example TestFormatRows :
  map (FormatRows [[VString (str "abc"); VNull; VBool true]; [VFloat 4623198344974853734; VInt 678; VBool false]; [VInt 1; VInt 23; VInt 456]]) [[]; (str "
"); (str "---")] =
  [(str "('abc', NULL, true)(12.45, 678, false)(1, 23, 456)");
   (str "('abc', NULL, true)
(12.45, 678, false)
(1, 23, 456)");
   (str "('abc', NULL, true)---(12.45, 678, false)---(1, 23, 456)")].
Proof. vm_compute. reflexivity. Qed.

(** [MustParseRows] of both, [RowsEqual]. *)
Definition rows_equal (c : list Z * list Z * bool) : option bool :=
  match ParseRows (fst (fst c)), ParseRows (snd (fst c)) with
  | Some r1, Some r2 => RowsEqual r1 r2 (snd c)
  | _, _ => None
  end.

(** [TestRowsEqual], testutil/rows_test.go:36-70. *)
Example TestRowsEqual :
  map rows_equal
  [((runes "('abc', NULL, true), (12.45, 678, false), (1, 23, 456)"), (runes "('abc', NULL, true), (12.45, 678, false), (1, 23, 456)"), false);
   ((runes "('abc', NULL, true), (12.45, 678, false), (1, 23, 456)"), (runes "(12.45, 678, false), (1, 23, 456), ('abc', NULL, true)"), false);
   ((runes "('abc', NULL, true), (12.45, 678, false), (1, 23, 456)"), (runes "(12.45, 678, false), (1, 23, 456), ('abc', NULL, true)"), true)] =
  [Some true; Some false; Some true].
Proof. vm_compute. reflexivity. Qed.

(** [TestParseValue], testutil/parse_test.go:12-53. *)
Example TestParseValue :
  map (fun s => option_map fst (ParseValue s))
  [(runes "'abc'");
   [32; 9; 10; 32; 39; 97; 98; 99; 39; 32; 32];
   (runes "'");
   (runes "' ");
   (runes "123");
   (runes " 123 ");
   (runes "123.456");
   (runes "123..456");
   (runes ".");
   (runes ".123");
   (runes "true");
   (runes "  False  ");
   (runes "t");
   (runes "null");
   (runes "'\a'");
   (runes "'\x1234");
   (runes "'\x123'");
   (runes "'\x1234567890abcdef'")] =
  [(Some (VString (str "abc")));
   (Some (VString (str "abc")));
   None;
   None;
   (Some (VInt 123));
   (Some (VInt 123));
   (Some (VFloat 4638387860618067575));
   None;
   None;
   (Some (VFloat 4593527504729830064));
   (Some (VBool true));
   (Some (VBool false));
   None;
   (Some (VNull));
   None;
   None;
   None;
   (Some (VBytes (map zb [18; 52; 86; 120; 144; 171; 205; 239])))].
Proof. vm_compute. reflexivity. Qed.

(** [TestParseRow], testutil/parse_test.go:55-89. *)
Example TestParseRow :
  map (fun s => option_map (fun x => rowString (fst x)) (ParseRow s))
  [(runes "(123, 'abc', true, 456.789, '\x010203')");
   (runes "(123 true)");
   (runes "123, true)");
   (runes "(123, true");
   (runes "()");
   (runes " (    123,456 ,'abc'  ,   'def'    )   ")] =
  [(Some (str "(123, 'abc', true, 456.789, '\x010203')"));
   None;
   None;
   None;
   None;
   (Some (str "(123, 456, 'abc', 'def')"))].
Proof. vm_compute. reflexivity. Qed.

(** [TestParseRows], testutil/parse_test.go:91-129. *)
Example TestParseRows :
  map (fun s => option_map (fun x => FormatRows x (str ", ")) (ParseRows s))
  [(runes "(123, 'abc', true, 456.789, '\x010203')");
   (runes "(12, 345), (123 true)");
   (runes "(true, false), 123, true)");
   (runes "('abc', 'def'), (123, true");
   (runes "(12, 345), ()");
   (runes " (    123,456 ,'abc'  ,   'def'    )   ");
   (runes "(12,34,'abc')   ,('def',567,89),    (true,true,false),(null,null,null)")] =
  [(Some (str "(123, 'abc', true, 456.789, '\x010203')"));
   None;
   None;
   None;
   None;
   (Some (str "(123, 456, 'abc', 'def')"));
   (Some (str "(12, 34, 'abc'), ('def', 567, 89), (true, true, false), (NULL, NULL, NULL)"))].
Proof. vm_compute. reflexivity. Qed.

(** The names that occur. *)
Definition util_names : list (bytes * bool) :=
  [((str "id1"), false); ((str "id2"), false); ((str "id3"), false); ((str "int"), false); ((str "char"), false); ((str "bytes"), false); ((str "col1"), false); ((str "col2"), false); ((str "c1"), false); ((str "c2"), false); ((str "c3"), false)].

(** The names of the tests, registered. *)
Definition T : idtable := table_of util_names.
Definition name (s : bytes) : Z := snd (ID T s false).

(** [TestParseIdentifier], testutil/parse_test.go:131-155. *)
Example TestParseIdentifier :
  map (fun s => option_map (fun x => fst (fst x)) (ParseIdentifier T s))
  [(runes "id1");
   (runes "+id1");
   (runes "  id2  ");
   (runes "  id3,  ")] =
  [(Some (name (str "id1")));
   None;
   (Some (name (str "id2")));
   (Some (name (str "id3")))].
Proof. vm_compute. reflexivity. Qed.

(** [TestParseIdentifiers], testutil/parse_test.go:157-185. *)
Example TestParseIdentifiers :
  map (fun s => option_map fst (ParseIdentifiers T s))
  [(runes "id1");
   (runes "id1 id2");
   (runes "id1, id2");
   (runes " id1,id2  ");
   (runes "id1, id2,   ");
   (runes "");
   (runes "  ");
   (runes "int, char, bytes")] =
  [(Some [(name (str "id1"))]);
   None;
   (Some [(name (str "id1")); (name (str "id2"))]);
   (Some [(name (str "id1")); (name (str "id2"))]);
   None;
   None;
   None;
   (Some [(name (str "int")); (name (str "char")); (name (str "bytes"))])].
Proof. vm_compute. reflexivity. Qed.

(** [TestParseColumns], testutil/parse_test.go:187-270. *)
Example TestParseColumns :
  map (fun s => option_map fst (ParseColumns T s))
  [(runes "col1 int");
   (runes "col1 bad");
   (runes "col1 int, col2 bool");
   (runes "c1 varbinary ( 123 ), c2 varchar(45), c3 text(678)");
   (runes "c1 binary 123)");
   (runes "c1 binary(123), c2 binary(456");
   (runes "c1 text()");
   (runes "c1 int, c2 bool not null, c3 char primary key");
   (runes "c1 int not null primary key, c2 bool, c3 char primary key");
   (runes "c1 int not, c2 bool");
   (runes "c1 int, c2 bool primary");
   (runes "c1 int null, c2 bool");
   (runes "c1 int, c2 bool 123")] =
  [(Some ([(name (str "col1"))], [{| ct_type := Int64Type; ct_size := 4; ct_fixed := false; ct_notnull := false |}], []));
   None;
   (Some ([(name (str "col1")); (name (str "col2"))], [{| ct_type := Int64Type; ct_size := 4; ct_fixed := false; ct_notnull := false |}; {| ct_type := BoolType; ct_size := 1; ct_fixed := false; ct_notnull := false |}], []));
   (Some ([(name (str "c1")); (name (str "c2")); (name (str "c3"))], [{| ct_type := BytesType; ct_size := 123; ct_fixed := false; ct_notnull := false |}; {| ct_type := StringType; ct_size := 45; ct_fixed := false; ct_notnull := false |}; {| ct_type := StringType; ct_size := 678; ct_fixed := false; ct_notnull := false |}], []));
   None;
   None;
   None;
   (Some ([(name (str "c1")); (name (str "c2")); (name (str "c3"))], [{| ct_type := Int64Type; ct_size := 4; ct_fixed := false; ct_notnull := false |}; {| ct_type := BoolType; ct_size := 1; ct_fixed := false; ct_notnull := true |}; {| ct_type := StringType; ct_size := 1; ct_fixed := true; ct_notnull := false |}], [(MakeColumnKey 2 false)]));
   (Some ([(name (str "c1")); (name (str "c2")); (name (str "c3"))], [{| ct_type := Int64Type; ct_size := 4; ct_fixed := false; ct_notnull := true |}; {| ct_type := BoolType; ct_size := 1; ct_fixed := false; ct_notnull := false |}; {| ct_type := StringType; ct_size := 1; ct_fixed := true; ct_notnull := false |}], [(MakeColumnKey 0 false); (MakeColumnKey 2 false)]));
   None;
   None;
   None;
   None].
Proof. vm_compute. reflexivity. Qed.
