(** The tests of encode and types, run on the model.

    Written by tools/gotests.py from the test files of /repo. *)

From Verif Require Import ModelBase ModelEncode ModelKey ModelValue ModelColumn ModelIdent ModelPrint ModelTestutil ModelColumnText LemmasDemo CheckBase.
Import ListNotations.
Open Scope Z_scope.

(** [TestEncodeVarint], encode/encode_test.go:13-45. *)
Example TestEncodeVarint :
  map (fun n => (EncodeVarint [] n, DecodeVarint (EncodeVarint [] n)))
    [0; 1; 125; 126; 127; 255; 256; 4095; 4096; 32639; 1234567890; 4294967295; 18446744073709551615] =
  [(map zb [0], Some ([], 0));
   (map zb [1], Some ([], 1));
   (map zb [125], Some ([], 125));
   (map zb [126], Some ([], 126));
   (map zb [127], Some ([], 127));
   (map zb [255; 1], Some ([], 255));
   (map zb [128; 2], Some ([], 256));
   (map zb [255; 31], Some ([], 4095));
   (map zb [128; 32], Some ([], 4096));
   (map zb [255; 254; 1], Some ([], 32639));
   (map zb [210; 133; 216; 204; 4], Some ([], 1234567890));
   (map zb [255; 255; 255; 255; 15], Some ([], 4294967295));
   (map zb [255; 255; 255; 255; 255; 255; 255; 255; 255; 1], Some ([], 18446744073709551615))].
Proof. vm_compute. reflexivity. Qed.

(** [TestEncodeZigzag64], encode/encode_test.go:47-98. *)
Example TestEncodeZigzag64 :
  map (fun n => (EncodeZigzag64 [] n, DecodeZigzag64 (EncodeZigzag64 [] n)))
    [0; 1; 125; 126; 127; 128; 129; 255; 256; 4095; 4096; 32639; 1234567890; 10000000000; 2147483647; 9223372036854775807; (-2147483648); (-9223372036854775808); (-987654321); (-1000000000); (-125); (-126); (-127); (-128); (-129); (-255)] =
  [(map zb [0], Some ([], 0));
   (map zb [2], Some ([], 1));
   (map zb [250; 1], Some ([], 125));
   (map zb [252; 1], Some ([], 126));
   (map zb [254; 1], Some ([], 127));
   (map zb [128; 2], Some ([], 128));
   (map zb [130; 2], Some ([], 129));
   (map zb [254; 3], Some ([], 255));
   (map zb [128; 4], Some ([], 256));
   (map zb [254; 63], Some ([], 4095));
   (map zb [128; 64], Some ([], 4096));
   (map zb [254; 253; 3], Some ([], 32639));
   (map zb [164; 139; 176; 153; 9], Some ([], 1234567890));
   (map zb [128; 144; 223; 192; 74], Some ([], 10000000000));
   (map zb [254; 255; 255; 255; 15], Some ([], 2147483647));
   (map zb [254; 255; 255; 255; 255; 255; 255; 255; 255; 1], Some ([], 9223372036854775807));
   (map zb [255; 255; 255; 255; 15], Some ([], (-2147483648)));
   (map zb [255; 255; 255; 255; 255; 255; 255; 255; 255; 1], Some ([], (-9223372036854775808)));
   (map zb [225; 162; 243; 173; 7], Some ([], (-987654321)));
   (map zb [255; 167; 214; 185; 7], Some ([], (-1000000000)));
   (map zb [249; 1], Some ([], (-125)));
   (map zb [251; 1], Some ([], (-126)));
   (map zb [253; 1], Some ([], (-127)));
   (map zb [255; 1], Some ([], (-128)));
   (map zb [129; 2], Some ([], (-129)));
   (map zb [253; 3], Some ([], (-255)))].
Proof. vm_compute. reflexivity. Qed.

(** The values of [TestMakeKey], encode/key_test.go:30-100. *)
Definition key_values : row :=
  [VNull;
   VBool false;
   VBool true;
   VInt (-999);
   VInt (-9);
   VInt 0;
   VInt 9;
   VInt 999;
   VFloat 9221120237041090561;
   VFloat 13875378466086662963;
   VFloat 13845134859448405197;
   VFloat 0;
   VFloat 4621762822593629389;
   VFloat 4652006429231887155;
   VString (str "A");
   VString (str "AA");
   VString (str "AAA");
   VString (str "AB");
   VString (str "BBB");
   VString (str "aaa");
   VBytes (map zb [0]);
   VBytes (map zb [0; 0]);
   VBytes (map zb [0; 0; 0]);
   VBytes (map zb [0; 1]);
   VBytes (map zb [1; 1]);
   VBytes (map zb [2; 0; 0; 0; 1]);
   VBytes (map zb [2; 0; 0; 1]);
   VBytes (map zb [2; 0; 0; 2]);
   VBytes (map zb [2; 2; 0; 0]);
   VBytes (map zb [254; 0]);
   VBytes (map zb [254; 0; 0]);
   VBytes (map zb [254; 255]);
   VBytes (map zb [255])].
Definition key_reverse : row :=
  [VNull;
   VBool true;
   VBool false;
   VInt 999;
   VInt 9;
   VInt 0;
   VInt (-9);
   VInt (-999);
   VFloat 4652006429231887155;
   VFloat 4621762822593629389;
   VFloat 0;
   VFloat 13845134859448405197;
   VFloat 13875378466086662963;
   VFloat 9221120237041090561;
   VString (str "aaa");
   VString (str "BBB");
   VString (str "AB");
   VString (str "AAA");
   VString (str "AA");
   VString (str "A");
   VBytes (map zb [255]);
   VBytes (map zb [254; 255]);
   VBytes (map zb [254; 0; 0]);
   VBytes (map zb [254; 0]);
   VBytes (map zb [2; 2; 0; 0]);
   VBytes (map zb [2; 0; 0; 2]);
   VBytes (map zb [2; 0; 0; 1]);
   VBytes (map zb [2; 0; 0; 0; 1]);
   VBytes (map zb [1; 1]);
   VBytes (map zb [0; 1]);
   VBytes (map zb [0; 0; 0]);
   VBytes (map zb [0; 0]);
   VBytes (map zb [0])].

(** [testMakeKey], encode/key_test.go:12-24. *)
Definition test_key (key : list Z) (values : row) (makeRow : value -> row) : bool :=
  (fix go (prev : bytes) (l : row) : bool :=
     match l with
     | [] => true
     | v :: l' => match MakeKey key (makeRow v) with
                  | Some buf => match bytes_compare prev buf with Lt => go buf l' | _ => false end
                  | None => false
                  end
     end) [] values.

(** [TestMakeKey], encode/key_test.go:102-136. *)
Example TestMakeKey :
  [test_key [MakeColumnKey 0 false] key_values (fun v => [v]);
   forallb (fun v0 => test_key [MakeColumnKey 1 false; MakeColumnKey 0 false] key_values (fun v1 => [v0; v1])) key_values;
   test_key [MakeColumnKey 0 true] key_reverse (fun v => [v]);
   forallb (fun v0 => test_key [MakeColumnKey 1 false; MakeColumnKey 0 true] key_values (fun v1 => [v0; v1])) key_reverse;
   forallb (fun v0 => test_key [MakeColumnKey 0 false; MakeColumnKey 1 true] key_reverse (fun v1 => [v0; v1])) key_values] =
  [true; true; true; true; true].
Proof. vm_compute. reflexivity. Qed.

(** [TestValue], types/value_test.go:11-48. *)
Example TestValue :
  map FormatValue
  [VBool true;
   VBool false;
   VInt 123;
   VInt 255;
   VInt (-123);
   VInt 0;
   VFloat 4608236261112822104;
   VFloat 0;
   VFloat 13831608297967597912;
   VString (str "abcdef");
   VString [];
   VBytes (map zb [18; 239; 18; 239; 18; 239]);
   VBytes [];
   VBytes [];
   VNull] =
  [(str "true");
   (str "false");
   (str "123");
   (str "255");
   (str "-123");
   (str "0");
   (str "1.234");
   (str "0");
   (str "-1.234");
   (str "'abcdef'");
   (str "''");
   (str "'\x12ef12ef12ef'");
   (str "'\x'");
   (str "'\x'");
   (str "NULL")].
Proof. vm_compute. reflexivity. Qed.

(** [TestCompare], types/value_test.go:94-137. *)
Example TestCompare :
  map (fun p => Compare (fst p) (snd p))
  [(VNull, VBool true);
   (VNull, VNull);
   (VBool false, VNull);
   (VBool true, VBool true);
   (VBool false, VBool false);
   (VBool false, VBool true);
   (VBool true, VBool false);
   (VBool false, VFloat 4608218246714312622);
   (VFloat 4608218246714312622, VBool false);
   (VFloat 4608218246714312622, VInt 123);
   (VFloat 4608218246714312622, VString (str "abc"));
   (VFloat 4608218246714312622, VFloat 4612451630364040888);
   (VFloat 4608218246714312622, VFloat 4608218246714312622);
   (VFloat 4608218246714312622, VFloat 4593311331947716280);
   (VInt 123, VBool false);
   (VInt 123, VFloat 4608218246714312622);
   (VInt 123, VString (str "abc"));
   (VInt 123, VInt 234);
   (VInt 123, VInt 123);
   (VInt 123, VInt 12);
   (VString (str "abc"), VBool false);
   (VString (str "abc"), VFloat 4608218246714312622);
   (VString (str "abc"), VInt 123);
   (VString (str "def"), VString (str "ghi"));
   (VString (str "def"), VString (str "def"));
   (VString (str "def"), VString (str "abc"))] =
  [Some Lt; Some Eq; Some Gt; Some Eq; Some Eq; Some Lt; Some Gt; Some Lt; Some Gt; Some Lt; Some Lt; Some Lt; Some Eq; Some Gt; Some Gt; Some Gt; Some Lt; Some Lt; Some Eq; Some Gt; Some Gt; Some Gt; Some Gt; Some Lt; Some Eq; Some Gt].
Proof. vm_compute. reflexivity. Qed.

(** [TestRow], types/value_test.go:139-175. *)
Example TestRow :
  map rowString
  [[VBool true; VInt 123; VFloat 0];
   [];
   [];
   [VBool false];
   [VInt 255; VInt (-123); VFloat 4608236261112822104; VString (str "abcdef")];
   [VString []; VBytes (map zb [18; 239; 18; 239; 18; 239]); VBytes []]] =
  [(str "(true, 123, 0)");
   (str "()");
   (str "()");
   (str "(false)");
   (str "(255, -123, 1.234, 'abcdef')");
   (str "('', '\x12ef12ef12ef', '\x')")].
Proof. vm_compute. reflexivity. Qed.

(** What a conversion gave, printed; an error is [None]. *)
Definition converted (r : res value) : option bytes := match r with Ok v => Some (FormatValue v) | _ => None end.

(** [TestConvertValue], types/value_test.go:177-291. *)
Example TestConvertValue :
  map (fun p => converted (ConvertValue (fst p) (snd p)))
  [({| ct_type := BoolType; ct_size := 0; ct_fixed := false; ct_notnull := true |}, VBool true);
   ({| ct_type := BoolType; ct_size := 0; ct_fixed := false; ct_notnull := false |}, VBool false);
   ({| ct_type := BoolType; ct_size := 0; ct_fixed := false; ct_notnull := true |}, VNull);
   ({| ct_type := BoolType; ct_size := 0; ct_fixed := false; ct_notnull := false |}, VNull);
   ({| ct_type := BoolType; ct_size := 0; ct_fixed := false; ct_notnull := true |}, VString (str "123"));
   ({| ct_type := BoolType; ct_size := 0; ct_fixed := false; ct_notnull := false |}, VString (str "123"));
   ({| ct_type := BoolType; ct_size := 0; ct_fixed := false; ct_notnull := true |}, VString (str "this"));
   ({| ct_type := BoolType; ct_size := 0; ct_fixed := false; ct_notnull := true |}, VString (str " t"));
   ({| ct_type := BoolType; ct_size := 0; ct_fixed := false; ct_notnull := true |}, VString (map zb [9; 116; 114; 117; 101; 10]));
   ({| ct_type := BoolType; ct_size := 0; ct_fixed := false; ct_notnull := true |}, VString (str "y"));
   ({| ct_type := BoolType; ct_size := 0; ct_fixed := false; ct_notnull := true |}, VString (str "yes"));
   ({| ct_type := BoolType; ct_size := 0; ct_fixed := false; ct_notnull := true |}, VString (str "on"));
   ({| ct_type := BoolType; ct_size := 0; ct_fixed := false; ct_notnull := true |}, VString (str "1"));
   ({| ct_type := BoolType; ct_size := 0; ct_fixed := false; ct_notnull := false |}, VString (str "f"));
   ({| ct_type := BoolType; ct_size := 0; ct_fixed := false; ct_notnull := false |}, VString (str "false"));
   ({| ct_type := BoolType; ct_size := 0; ct_fixed := false; ct_notnull := false |}, VString (str "n"));
   ({| ct_type := BoolType; ct_size := 0; ct_fixed := false; ct_notnull := false |}, VString (str "no"));
   ({| ct_type := BoolType; ct_size := 0; ct_fixed := false; ct_notnull := false |}, VString (str "off"));
   ({| ct_type := BoolType; ct_size := 0; ct_fixed := false; ct_notnull := false |}, VString (str "0"));
   ({| ct_type := BoolType; ct_size := 0; ct_fixed := false; ct_notnull := true |}, VBytes (str "{"));
   ({| ct_type := BoolType; ct_size := 0; ct_fixed := false; ct_notnull := true |}, VFloat 4638387860618067575);
   ({| ct_type := BoolType; ct_size := 0; ct_fixed := false; ct_notnull := true |}, VInt 123);
   ({| ct_type := StringType; ct_size := 4294967294; ct_fixed := false; ct_notnull := true |}, VString (str "abcdef"));
   ({| ct_type := StringType; ct_size := 4294967294; ct_fixed := false; ct_notnull := false |}, VString (str "abcdef"));
   ({| ct_type := StringType; ct_size := 4294967294; ct_fixed := false; ct_notnull := true |}, VNull);
   ({| ct_type := StringType; ct_size := 4294967294; ct_fixed := false; ct_notnull := false |}, VNull);
   ({| ct_type := StringType; ct_size := 4294967294; ct_fixed := false; ct_notnull := true |}, VBool true);
   ({| ct_type := StringType; ct_size := 4294967294; ct_fixed := false; ct_notnull := true |}, VBytes (str "abcdef"));
   ({| ct_type := StringType; ct_size := 4294967294; ct_fixed := false; ct_notnull := true |}, VBytes (map zb [255; 255; 255]));
   ({| ct_type := StringType; ct_size := 4294967294; ct_fixed := false; ct_notnull := true |}, VFloat 4638387860618067575);
   ({| ct_type := StringType; ct_size := 4294967294; ct_fixed := false; ct_notnull := true |}, VInt 123456);
   ({| ct_type := StringType; ct_size := 8; ct_fixed := true; ct_notnull := false |}, VString (str "12345678"));
   ({| ct_type := StringType; ct_size := 8; ct_fixed := false; ct_notnull := false |}, VString (str "abcdefgh"));
   ({| ct_type := StringType; ct_size := 8; ct_fixed := true; ct_notnull := false |}, VString (str "123456789"));
   ({| ct_type := StringType; ct_size := 8; ct_fixed := false; ct_notnull := false |}, VString (str "abcdefghi"));
   ({| ct_type := BytesType; ct_size := 4294967294; ct_fixed := false; ct_notnull := true |}, VBytes (map zb [1; 2; 3; 4]));
   ({| ct_type := BytesType; ct_size := 4294967294; ct_fixed := false; ct_notnull := false |}, VBytes (map zb [1; 2; 3; 4]));
   ({| ct_type := BytesType; ct_size := 4294967294; ct_fixed := false; ct_notnull := true |}, VNull);
   ({| ct_type := BytesType; ct_size := 4294967294; ct_fixed := false; ct_notnull := false |}, VNull);
   ({| ct_type := BytesType; ct_size := 4294967294; ct_fixed := false; ct_notnull := true |}, VBool true);
   ({| ct_type := BytesType; ct_size := 4294967294; ct_fixed := false; ct_notnull := true |}, VString (str "abc"));
   ({| ct_type := BytesType; ct_size := 4294967294; ct_fixed := false; ct_notnull := true |}, VFloat 4638387860618067575);
   ({| ct_type := BytesType; ct_size := 4294967294; ct_fixed := false; ct_notnull := true |}, VInt 123456);
   ({| ct_type := BytesType; ct_size := 4; ct_fixed := true; ct_notnull := false |}, VBytes (map zb [1; 2; 3; 4]));
   ({| ct_type := BytesType; ct_size := 4; ct_fixed := false; ct_notnull := false |}, VBytes (map zb [1; 2; 3; 4]));
   ({| ct_type := BytesType; ct_size := 4; ct_fixed := true; ct_notnull := false |}, VBytes (map zb [1; 2; 3; 4; 5]));
   ({| ct_type := BytesType; ct_size := 4; ct_fixed := false; ct_notnull := false |}, VBytes (map zb [1; 2; 3; 4; 5]));
   ({| ct_type := Float64Type; ct_size := 0; ct_fixed := false; ct_notnull := true |}, VFloat 4638387860618067575);
   ({| ct_type := Float64Type; ct_size := 0; ct_fixed := false; ct_notnull := false |}, VFloat 4638387860618067575);
   ({| ct_type := Float64Type; ct_size := 0; ct_fixed := false; ct_notnull := true |}, VNull);
   ({| ct_type := Float64Type; ct_size := 0; ct_fixed := false; ct_notnull := false |}, VNull);
   ({| ct_type := Float64Type; ct_size := 0; ct_fixed := false; ct_notnull := true |}, VBool true);
   ({| ct_type := Float64Type; ct_size := 0; ct_fixed := false; ct_notnull := true |}, VString (str "123.456"));
   ({| ct_type := Float64Type; ct_size := 0; ct_fixed := false; ct_notnull := true |}, VString (str "abc"));
   ({| ct_type := Float64Type; ct_size := 0; ct_fixed := false; ct_notnull := false |}, VBytes (map zb [1; 2; 3]));
   ({| ct_type := Float64Type; ct_size := 0; ct_fixed := false; ct_notnull := true |}, VInt 123);
   ({| ct_type := Int64Type; ct_size := 8; ct_fixed := false; ct_notnull := true |}, VInt 123);
   ({| ct_type := Int64Type; ct_size := 8; ct_fixed := false; ct_notnull := false |}, VInt (-123));
   ({| ct_type := Int64Type; ct_size := 8; ct_fixed := false; ct_notnull := true |}, VNull);
   ({| ct_type := Int64Type; ct_size := 8; ct_fixed := false; ct_notnull := false |}, VNull);
   ({| ct_type := Int64Type; ct_size := 8; ct_fixed := false; ct_notnull := true |}, VBool true);
   ({| ct_type := Int64Type; ct_size := 8; ct_fixed := false; ct_notnull := true |}, VString (str "123"));
   ({| ct_type := Int64Type; ct_size := 8; ct_fixed := false; ct_notnull := true |}, VString (str "abc"));
   ({| ct_type := Int64Type; ct_size := 8; ct_fixed := false; ct_notnull := false |}, VBytes (map zb [1; 2; 3]));
   ({| ct_type := Int64Type; ct_size := 8; ct_fixed := false; ct_notnull := true |}, VFloat 4638355772470722560);
   ({| ct_type := Int64Type; ct_size := 8; ct_fixed := false; ct_notnull := true |}, VFloat 4638383919968393626);
   ({| ct_type := Int64Type; ct_size := 4; ct_fixed := false; ct_notnull := true |}, VInt 2147483647);
   ({| ct_type := Int64Type; ct_size := 4; ct_fixed := false; ct_notnull := true |}, VInt (-2147483648));
   ({| ct_type := Int64Type; ct_size := 4; ct_fixed := false; ct_notnull := true |}, VInt 2147483648);
   ({| ct_type := Int64Type; ct_size := 4; ct_fixed := false; ct_notnull := true |}, VInt (-2147483649));
   ({| ct_type := Int64Type; ct_size := 2; ct_fixed := false; ct_notnull := true |}, VInt 32767);
   ({| ct_type := Int64Type; ct_size := 2; ct_fixed := false; ct_notnull := true |}, VInt (-32768));
   ({| ct_type := Int64Type; ct_size := 2; ct_fixed := false; ct_notnull := true |}, VInt 32768);
   ({| ct_type := Int64Type; ct_size := 2; ct_fixed := false; ct_notnull := true |}, VInt (-32769))] =
  [(Some (str "true"));
   (Some (str "false"));
   None;
   (Some (str "NULL"));
   None;
   None;
   None;
   (Some (str "true"));
   (Some (str "true"));
   (Some (str "true"));
   (Some (str "true"));
   (Some (str "true"));
   (Some (str "true"));
   (Some (str "false"));
   (Some (str "false"));
   (Some (str "false"));
   (Some (str "false"));
   (Some (str "false"));
   (Some (str "false"));
   None;
   None;
   None;
   (Some (str "'abcdef'"));
   (Some (str "'abcdef'"));
   None;
   (Some (str "NULL"));
   None;
   (Some (str "'abcdef'"));
   None;
   (Some (str "'123.456'"));
   (Some (str "'123456'"));
   (Some (str "'12345678'"));
   (Some (str "'abcdefgh'"));
   None;
   None;
   (Some (str "'\x01020304'"));
   (Some (str "'\x01020304'"));
   None;
   (Some (str "NULL"));
   None;
   (Some (str "'\x616263'"));
   None;
   None;
   (Some (str "'\x01020304'"));
   (Some (str "'\x01020304'"));
   None;
   None;
   (Some (str "123.456"));
   (Some (str "123.456"));
   None;
   (Some (str "NULL"));
   None;
   (Some (str "123.456"));
   None;
   None;
   (Some (str "123"));
   (Some (str "123"));
   (Some (str "-123"));
   None;
   (Some (str "NULL"));
   None;
   (Some (str "123"));
   None;
   None;
   (Some (str "123"));
   (Some (str "123"));
   (Some (str "2147483647"));
   (Some (str "-2147483648"));
   None;
   None;
   (Some (str "32767"));
   (Some (str "-32768"));
   None;
   None].
Proof. vm_compute. reflexivity. Qed.

(** [TestConvertRow], types/value_test.go:293-362. *)
Example TestConvertRow :
  map (fun r => match ConvertRow [{| ct_type := BoolType; ct_size := 0; ct_fixed := false; ct_notnull := true |}; {| ct_type := StringType; ct_size := 4294967294; ct_fixed := false; ct_notnull := true |}; {| ct_type := Int64Type; ct_size := 8; ct_fixed := false; ct_notnull := false |}] r with Ok r => Some (rowString r) | _ => None end)
  [[VBool true; VString (str "abc"); VInt 123];
   [VString (str "t"); VString (str "abc"); VInt 123];
   [VBool true; VString (str "abc"); VString (str "123")];
   [VBool true; VInt 123; VInt 123];
   [VString (str "t"); VBytes (str "abc"); VString (str "123")];
   [VNull; VBytes (str "abc"); VString (str "123")];
   [VString (str "t"); VString []; VString (str "123")];
   [VBool true; VString (str "abc"); VInt 123; VInt 456];
   [VString (str "t"); VString (str "abc")];
   [VString (str "t")]] =
  [(Some (str "(true, 'abc', 123)"));
   (Some (str "(true, 'abc', 123)"));
   (Some (str "(true, 'abc', 123)"));
   (Some (str "(true, '123', 123)"));
   (Some (str "(true, 'abc', 123)"));
   None;
   (Some (str "(true, '', 123)"));
   None;
   (Some (str "(true, 'abc', NULL)"));
   (Some (str "(true, NULL, NULL)"))].
Proof. vm_compute. reflexivity. Qed.

(** [TestValueType], types/value_test.go:64-92. *)
Example TestValueType :
  map valtypeString [BoolType; StringType; BytesType; Float64Type; Int64Type; UnknownType] =
  [str "BOOL"; str "STRING"; str "BYTES"; str "DOUBLE"; str "INT"; str "UNKNOWN"].
Proof. vm_compute. reflexivity. Qed.

(** [TestColumnType], types/column_test.go:23-65. *)
Example TestColumnType :
  map columnTypeString
  [{| ct_type := UnknownType; ct_size := 0; ct_fixed := false; ct_notnull := false |};
   {| ct_type := BoolType; ct_size := 0; ct_fixed := false; ct_notnull := false |};
   {| ct_type := BoolType; ct_size := 10; ct_fixed := false; ct_notnull := false |};
   {| ct_type := BoolType; ct_size := 0; ct_fixed := true; ct_notnull := false |};
   {| ct_type := StringType; ct_size := 0; ct_fixed := false; ct_notnull := false |};
   {| ct_type := StringType; ct_size := 123; ct_fixed := false; ct_notnull := false |};
   {| ct_type := StringType; ct_size := 45; ct_fixed := true; ct_notnull := false |};
   {| ct_type := StringType; ct_size := 4294967294; ct_fixed := false; ct_notnull := false |};
   {| ct_type := BytesType; ct_size := 0; ct_fixed := false; ct_notnull := false |};
   {| ct_type := BytesType; ct_size := 123; ct_fixed := false; ct_notnull := false |};
   {| ct_type := BytesType; ct_size := 45; ct_fixed := true; ct_notnull := false |};
   {| ct_type := BytesType; ct_size := 4294967294; ct_fixed := false; ct_notnull := false |};
   {| ct_type := Float64Type; ct_size := 0; ct_fixed := false; ct_notnull := false |};
   {| ct_type := Float64Type; ct_size := 10; ct_fixed := false; ct_notnull := false |};
   {| ct_type := Float64Type; ct_size := 0; ct_fixed := true; ct_notnull := false |};
   {| ct_type := Int64Type; ct_size := 2; ct_fixed := false; ct_notnull := false |};
   {| ct_type := Int64Type; ct_size := 4; ct_fixed := false; ct_notnull := false |};
   {| ct_type := Int64Type; ct_size := 8; ct_fixed := false; ct_notnull := false |};
   {| ct_type := Int64Type; ct_size := 2; ct_fixed := true; ct_notnull := false |};
   {| ct_type := Int64Type; ct_size := 1; ct_fixed := false; ct_notnull := false |}] =
  [(Some (str "UNKNOWN"));
   (Some (str "BOOL"));
   (Some (str "BOOL"));
   (Some (str "BOOL"));
   None;
   (Some (str "VARCHAR(123)"));
   (Some (str "CHAR(45)"));
   (Some (str "TEXT"));
   None;
   (Some (str "VARBINARY(123)"));
   (Some (str "BINARY(45)"));
   (Some (str "BYTES"));
   (Some (str "DOUBLE"));
   (Some (str "DOUBLE"));
   (Some (str "DOUBLE"));
   (Some (str "SMALLINT"));
   (Some (str "INT"));
   (Some (str "BIGINT"));
   (Some (str "SMALLINT"));
   None].
Proof. vm_compute. reflexivity. Qed.

(** Two names after another, from the first table. *)
Definition two_ids (c : bytes * bool * (bytes * bool)) : bool :=
  let '((s1, q1), (s2, q2)) := c in
  let '(t, id1) := ID idt_init s1 q1 in snd (ID t s2 q2) =? id1.

(** [TestID], types/identifier_test.go:11-63. *)
Example TestID :
  map two_ids
  [(((str "abc"), false), ((str "abc"), false));
   (((str "Abc"), false), ((str "abc"), false));
   (((str "aBc"), false), ((str "abc"), false));
   (((str "ABC"), false), ((str "abc"), false));
   (((str "create"), false), ((str "create"), false));
   (((str "create"), false), ((str "CREATE"), false));
   (((str "abc"), false), ((str "abcd"), false));
   (((str "abcd"), false), ((str "abc"), false));
   (((str "abc"), false), ((str "ABCD"), false));
   (((str "ABCD"), false), ((str "abc"), false));
   (((str "create"), true), ((str "create"), false));
   (((str "create"), true), ((str "CREATE"), false));
   (((str "create"), false), ((str "create"), true));
   (((str "create"), false), ((str "CREATE"), true));
   (((str "create"), true), ((str "create"), true));
   (((str "create"), true), ((str "CREATE"), true));
   (((str "abc"), true), ((str "abc"), true));
   (((str "ABC"), true), ((str "ABC"), true));
   (((str "abc"), false), ((str "abc"), true));
   (((str "ABC"), false), ((str "ABC"), true));
   (((str "abc"), true), ((str "abc"), false));
   (((str "ABC"), true), ((str "ABC"), false));
   (((str "abc"), true), ((str "abcd"), true));
   (((str "abcd"), true), ((str "abc"), true));
   (((str "abc"), true), ((str "ABCD"), true));
   (((str "ABCD"), true), ((str "abc"), true));
   (((str "xxxxxxxxxxxxxxxxxxxxxxxxxxxxxxxxxxxxxxxxxxxxxxxxxxxxxxxxxxxxxxxxxxxxxxxxxxxxxxxxxxxxxxxxxxxxxxxxxxxxxxxxxxxxxxxxxxxxxxxxxxxxxxxxxxxxxxxxxxxx"), false), ((str "xxxxxxxxxxxxxxxxxxxxxxxxxxxxxxxxxxxxxxxxxxxxxxxxxxxxxxxxxxxxxxxxxxxxxxxxxxxxxxxxxxxxxxxxxxxxxxxxxxxxxxxxxxxxxxxxxxxxxxxxxxxxxxxxxxxxxxxxxxxxxxxxxxxxxxxxxxxxxxxxxx"), false))] =
  [true; true; true; true; true; true; false; false; false; false; false; false; false; false; true; false; true; true; true; false; true; false; false; false; false; false; true].
Proof. vm_compute. reflexivity. Qed.

(** [TestString], types/identifier_test.go:65-96. *)
Example TestString :
  map (fun c => let '(t, id) := ID idt_init (fst c) (snd c) in idString t id)
  [((str "abc"), false);
   ((str "ABC"), false);
   ((str "abc"), true);
   ((str "ABC"), true);
   ((str "create"), false);
   ((str "CREATE"), false);
   ((str "create"), true);
   ((str "CREATE"), true);
   ((str "system"), false);
   ((str "system"), true);
   ((str "bigint"), false);
   ((str "bigint"), true);
   ((str "wwwwwwwwwwwwwwwwwwwwwwwwwwwwwwwwwwwwwwwwwwwwwwwwwwwwwwwwwwwwwwwwwwwwwwwwwwwwwwwwwwwwwwwwwwwwwwwwwwwwwwwwwwwwwwwwwwwwwwwwwwwwwwwwwwwwwwwwwwww"), false);
   ((str "XXXXXXXXXXXXXXXXXXXXXXXXXXXXXXXXXXXXXXXXXXXXXXXXXXXXXXXXXXXXXXXXXXXXXXXXXXXXXXXXXXXXXXXXXXXXXXXXXXXXXXXXXXXXXXXXXXXXXXXXXXXXXXXXXXXXXXXXXXXX"), false);
   ((str "yyyyyyyyyyyyyyyyyyyyyyyyyyyyyyyyyyyyyyyyyyyyyyyyyyyyyyyyyyyyyyyyyyyyyyyyyyyyyyyyyyyyyyyyyyyyyyyyyyyyyyyyyyyyyyyyyyyyyyyyyyyyyyyyyyyyyyyyyyyy"), true);
   ((str "ZZZZZZZZZZZZZZZZZZZZZZZZZZZZZZZZZZZZZZZZZZZZZZZZZZZZZZZZZZZZZZZZZZZZZZZZZZZZZZZZZZZZZZZZZZZZZZZZZZZZZZZZZZZZZZZZZZZZZZZZZZZZZZZZZZZZZZZZZZZZ"), true)] =
  [(str "abc");
   (str "abc");
   (str "abc");
   (str "ABC");
   (str "CREATE");
   (str "CREATE");
   (str "create");
   (str "CREATE");
   (str "system");
   (str "system");
   (str "BIGINT");
   (str "bigint");
   (str "wwwwwwwwwwwwwwwwwwwwwwwwwwwwwwwwwwwwwwwwwwwwwwwwwwwwwwwwwwwwwwwwwwwwwwwwwwwwwwwwwwwwwwwwwwwwwwwwwwwwwwwwwwwwwwwwwwwwwwwwwwwwwwww");
   (str "xxxxxxxxxxxxxxxxxxxxxxxxxxxxxxxxxxxxxxxxxxxxxxxxxxxxxxxxxxxxxxxxxxxxxxxxxxxxxxxxxxxxxxxxxxxxxxxxxxxxxxxxxxxxxxxxxxxxxxxxxxxxxxxx");
   (str "yyyyyyyyyyyyyyyyyyyyyyyyyyyyyyyyyyyyyyyyyyyyyyyyyyyyyyyyyyyyyyyyyyyyyyyyyyyyyyyyyyyyyyyyyyyyyyyyyyyyyyyyyyyyyyyyyyyyyyyyyyyyyyyy");
   (str "ZZZZZZZZZZZZZZZZZZZZZZZZZZZZZZZZZZZZZZZZZZZZZZZZZZZZZZZZZZZZZZZZZZZZZZZZZZZZZZZZZZZZZZZZZZZZZZZZZZZZZZZZZZZZZZZZZZZZZZZZZZZZZZZZ")].
Proof. vm_compute. reflexivity. Qed.

(** [TestIsReserved], types/identifier_test.go:98-124. *)
Example TestIsReserved :
  map (fun c => IsReserved (snd (ID idt_init (fst c) (snd c))))
  [((str "abc"), false);
   ((str "abc"), true);
   ((str "create"), false);
   ((str "Create"), false);
   ((str "CREATE"), false);
   ((str "update"), false);
   ((str "select"), false);
   ((str "bigint"), false);
   ((str "BIGINT"), true);
   ((str "system"), false);
   ((str "SYSTEM"), true)] =
  [false; false; true; true; true; true; true; false; false; false; false].
Proof. vm_compute. reflexivity. Qed.

(** [TestKnown], types/identifier_test.go:126-152. *)
Example TestKnown :
  map (fun c => snd (ID idt_init (fst (fst c)) (snd (fst c))) =? constant (snd c))
  [(((str "create"), false), (str "CREATE"));
   (((str "CREATE"), false), (str "CREATE"));
   (((str "CREATE"), true), (str "CREATE"));
   (((str "system"), false), (str "SYSTEM"));
   (((str "system"), true), (str "SYSTEM"));
   (((str "bigint"), false), (str "BIGINT"));
   (((str "BIGINT"), true), (str "BIGINT"))] =
  [true; true; false; true; true; true; false].
Proof. vm_compute. reflexivity. Qed.

(** [TestKeywords], types/identifier_test.go:154-160. *)
Example TestKeywords :
  forallb (fun k => bytes_eqb (fst k) (x_to_upper (fst k))) keywords =
  true.
Proof. vm_compute. reflexivity. Qed.

(** [TestName], types/name_test.go:9-53. *)
Example TestName :
  let '(t, db) := ID idt_init (str "db") false in
  let '(t, scm) := ID t (str "scm") false in
  let '(t, tbl) := ID t (str "tbl") false in
  [tableString t {| tn_database := db; tn_schema := scm; tn_table := tbl |};
   schemaString t {| sn_database := db; sn_schema := scm |};
   tableString t {| tn_database := 0; tn_schema := scm; tn_table := tbl |};
   schemaString t {| sn_database := 0; sn_schema := scm |};
   tableString t {| tn_database := 0; tn_schema := 0; tn_table := tbl |}] =
  [str "db.scm.tbl"; str "db.scm"; str "scm.tbl"; str "scm"; str "tbl"].
Proof. vm_compute. reflexivity. Qed.
