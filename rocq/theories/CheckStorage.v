(** The tests of the store, run on the model.

    Written by tools/gotests.py from the test files of /repo. *)

From Verif Require Import ModelBase ModelIdent ModelColumn ModelStore ModelTestutil ModelStorageTest LemmasDemo LemmasDemoTyped LemmasDemoScan CheckBase.
Import ListNotations.
Open Scope Z_scope.

(** The names that occur. *)
Definition all_names : list (bytes * bool) :=
  [((str "col1"), false); ((str "col2"), false); ((str "col3"), false); ((str "col4"), false); ((str "col5"), false); ((str "col6"), false)].
(** Registered before a test. *)
Definition T : idtable := table_of all_names.
Definition name (s : bytes) : Z := snd (ID T s false).
Definition quoted (s : bytes) : Z := snd (ID T s true).

Definition must_row (text : list Z) : row := match ParseRow text with Some (r, _) => r | None => [] end.
Definition must_rows (text : list Z) : list row := match ParseRows text with Some l => l | None => [] end.

(** [st.Begin()] and [testStorage], one after another; that nothing is reported. *)
Fixpoint tests_pass (sh : shared) (l : list (list tcase)) : bool :=
  match l with
  | [] => negb (sh_locked sh)
  | cases :: l' =>
      if sh_locked sh then false
      else
        match testStorage ({| sh_heap := sh_heap sh; sh_tree := sh_tree sh; sh_locked := true; sh_idt := sh_idt sh |}, newTx sh) cases with
        | None => false
        | Some s => negb (ts_failed s) && tests_pass (fst (ts_state s)) l'
        end
  end.

(** The rows and the function of [TestTable], storage/test/table.go:1235-1243, 1281-1283,
    1288-1292, 1320-1325. *)
Definition table_rows : list row :=
  map (fun n => let n := Z.of_nat n in [VInt n; VBool (n mod 2 =? 0); VString []; VInt n]) (seq 1 19).
Definition negate (r : row) : list Z * list value := ([3], [match nth 3 r VNull with VInt i => VInt (- i) | v => v end]).
Definition table_rows_updated : list row :=
  map (fun r => match r with [a; VBool true; c; VInt i] => [a; VBool true; c; VInt (- i)] | r => r end) table_rows.
Definition table_rows_left : list row :=
  filter (fun r => match r with [_; VBool b; _; _] => b | _ => false end) table_rows_updated.

(** [TestCreateTable], storage/test/table.go:21-190. *)
Example TestCreateTable :
  tests_pass (w_sh (newStore T))
  [
   [TOpenTable 17 [] [] None true;
   TCreateTable 17 [(name (str "col1")); (name (str "col2"))] [ModelColumn.IdColType; ModelColumn.Int32ColType] (Some [(MakeColumnKey 0 false)]) false;
   TOpenTable 17 [(name (str "col1")); (name (str "col2"))] [ModelColumn.IdColType; ModelColumn.Int32ColType] (Some [(MakeColumnKey 0 false)]) false;
   TTableType 17 1 [(name (str "col1")); (name (str "col2"))] [ModelColumn.IdColType; ModelColumn.Int32ColType] (Some [(MakeColumnKey 0 false)]);
   TCommit false];
   
   [TOpenTable 17 [(name (str "col1")); (name (str "col2"))] [ModelColumn.IdColType; ModelColumn.Int32ColType] (Some [(MakeColumnKey 0 false)]) false;
   TTableType 17 1 [(name (str "col1")); (name (str "col2"))] [ModelColumn.IdColType; ModelColumn.Int32ColType] (Some [(MakeColumnKey 0 false)]);
   TRollback false];
   
   [TCreateTable 18 [(name (str "col1")); (name (str "col2")); (name (str "col3"))] [ModelColumn.IdColType; ModelColumn.Int32ColType; ModelColumn.StringColType] (Some [(MakeColumnKey 2 false); (MakeColumnKey 1 true)]) false;
   TRollback false];
   
   [TOpenTable 18 [] [] None true;
   TOpenTable 17 [(name (str "col1")); (name (str "col2"))] [ModelColumn.IdColType; ModelColumn.Int32ColType] (Some [(MakeColumnKey 0 false)]) false;
   TTableType 17 1 [(name (str "col1")); (name (str "col2"))] [ModelColumn.IdColType; ModelColumn.Int32ColType] (Some [(MakeColumnKey 0 false)]);
   TRollback false];
   
   [TCreateTable 18 [(name (str "col1")); (name (str "col2")); (name (str "col3"))] [ModelColumn.IdColType; ModelColumn.Int32ColType; ModelColumn.StringColType] (Some [(MakeColumnKey 2 false); (MakeColumnKey 1 true)]) false;
   TCommit false];
   
   [TOpenTable 17 [(name (str "col1")); (name (str "col2"))] [ModelColumn.IdColType; ModelColumn.Int32ColType] (Some [(MakeColumnKey 0 false)]) false;
   TTableType 17 1 [(name (str "col1")); (name (str "col2"))] [ModelColumn.IdColType; ModelColumn.Int32ColType] (Some [(MakeColumnKey 0 false)]);
   TOpenTable 18 [(name (str "col1")); (name (str "col2")); (name (str "col3"))] [ModelColumn.IdColType; ModelColumn.Int32ColType; ModelColumn.StringColType] (Some [(MakeColumnKey 2 false); (MakeColumnKey 1 true)]) false;
   TTableType 18 1 [(name (str "col1")); (name (str "col2")); (name (str "col3"))] [ModelColumn.IdColType; ModelColumn.Int32ColType; ModelColumn.StringColType] (Some [(MakeColumnKey 2 false); (MakeColumnKey 1 true)]);
   TRollback false];
   
   [TCreateTable 1 [] [] None true;
   TCreateTable 19 [(name (str "col1")); (name (str "col2")); (name (str "col3"))] [ModelColumn.IdColType; ModelColumn.Int32ColType] None true;
   TCreateTable 20 [(name (str "col1")); (name (str "col2")); (name (str "col3"))] [ModelColumn.IdColType; ModelColumn.Int32ColType; ModelColumn.StringColType] (Some [(MakeColumnKey 3 false)]) true;
   TCommit false];
   
   [TCreateTable 21 [(name (str "col1")); (name (str "col2")); (name (str "col3"))] [ModelColumn.IdColType; ModelColumn.Int32ColType; ModelColumn.StringColType] None false;
   TOpenTable 21 [(name (str "col1")); (name (str "col2")); (name (str "col3"))] [ModelColumn.IdColType; ModelColumn.Int32ColType; ModelColumn.StringColType] None false;
   TTableType 21 1 [(name (str "col1")); (name (str "col2")); (name (str "col3"))] [ModelColumn.IdColType; ModelColumn.Int32ColType; ModelColumn.StringColType] None;
   TCommit false]] =
  true.
Proof. vm_compute. reflexivity. Qed.

(** [TestDropTable], storage/test/table.go:192-280. *)
Example TestDropTable :
  tests_pass (w_sh (newStore T))
  [
   [TDropTable 17 true;
   TCreateTable 17 [(name (str "col1")); (name (str "col2"))] [ModelColumn.IdColType; ModelColumn.Int32ColType] (Some [(MakeColumnKey 0 false)]) false;
   TOpenTable 17 [(name (str "col1")); (name (str "col2"))] [ModelColumn.IdColType; ModelColumn.Int32ColType] (Some [(MakeColumnKey 0 false)]) false;
   TCreateTable 18 [(name (str "col1")); (name (str "col2"))] [ModelColumn.IdColType; ModelColumn.Int32ColType] (Some [(MakeColumnKey 0 false)]) false;
   TOpenTable 18 [(name (str "col1")); (name (str "col2"))] [ModelColumn.IdColType; ModelColumn.Int32ColType] (Some [(MakeColumnKey 0 false)]) false;
   TCommit false];
   
   [TOpenTable 17 [(name (str "col1")); (name (str "col2"))] [ModelColumn.IdColType; ModelColumn.Int32ColType] (Some [(MakeColumnKey 0 false)]) false;
   TDropTable 17 false;
   TOpenTable 17 [] [] None true;
   TRollback false];
   
   [TOpenTable 17 [(name (str "col1")); (name (str "col2"))] [ModelColumn.IdColType; ModelColumn.Int32ColType] (Some [(MakeColumnKey 0 false)]) false;
   TDropTable 17 false;
   TOpenTable 17 [] [] None true;
   TCommit false];
   
   [TOpenTable 17 [] [] None true;
   TOpenTable 18 [(name (str "col1")); (name (str "col2"))] [ModelColumn.IdColType; ModelColumn.Int32ColType] (Some [(MakeColumnKey 0 false)]) false;
   TRollback false]] =
  true.
Proof. vm_compute. reflexivity. Qed.

(** [TestInsert], storage/test/table.go:282-386. *)
Example TestInsert :
  tests_pass (w_sh (newStore T))
  [
   [TCreateTable 17 [(name (str "col1")); (name (str "col2")); (name (str "col3")); (name (str "col4")); (name (str "col5"))] [ModelColumn.StringColType; ModelColumn.BoolColType; {| ct_type := BytesType; ct_size := 2048; ct_fixed := false; ct_notnull := false |}; {| ct_type := Float64Type; ct_size := 0; ct_fixed := false; ct_notnull := true |}; {| ct_type := Int64Type; ct_size := 4; ct_fixed := false; ct_notnull := false |}] (Some [(MakeColumnKey 0 false)]) false;
   TCommit false];
   
   [TOpenTable 17 [(name (str "col1")); (name (str "col2")); (name (str "col3")); (name (str "col4")); (name (str "col5"))] [ModelColumn.StringColType; ModelColumn.BoolColType; {| ct_type := BytesType; ct_size := 2048; ct_fixed := false; ct_notnull := false |}; {| ct_type := Float64Type; ct_size := 0; ct_fixed := false; ct_notnull := true |}; {| ct_type := Int64Type; ct_size := 4; ct_fixed := false; ct_notnull := false |}] (Some [(MakeColumnKey 0 false)]) false;
   TInsert (must_rows (runes "
('abcdef', true, null, 123.456, 789),
('ABC', false, '\x010203', 1.23, 45),
('xyz', false, null, 23.45)")) false;
   TCommit false];
   
   [TOpenTable 17 [(name (str "col1")); (name (str "col2")); (name (str "col3")); (name (str "col4")); (name (str "col5"))] [ModelColumn.StringColType; ModelColumn.BoolColType; {| ct_type := BytesType; ct_size := 2048; ct_fixed := false; ct_notnull := false |}; {| ct_type := Float64Type; ct_size := 0; ct_fixed := false; ct_notnull := true |}; {| ct_type := Int64Type; ct_size := 4; ct_fixed := false; ct_notnull := false |}] (Some [(MakeColumnKey 0 false)]) false;
   TSelect None None None None (must_rows (runes "
('abcdef', true, null, 123.456, 789),
('ABC', false, '\x010203', 1.23, 45),
('xyz', false, null, 23.45, null)")) true;
   TCommit false];
   
   [TOpenTable 17 [(name (str "col1")); (name (str "col2")); (name (str "col3")); (name (str "col4")); (name (str "col5"))] [ModelColumn.StringColType; ModelColumn.BoolColType; {| ct_type := BytesType; ct_size := 2048; ct_fixed := false; ct_notnull := false |}; {| ct_type := Float64Type; ct_size := 0; ct_fixed := false; ct_notnull := true |}; {| ct_type := Int64Type; ct_size := 4; ct_fixed := false; ct_notnull := false |}] (Some [(MakeColumnKey 0 false)]) false;
   TInsert (must_rows (runes "
('abcdef',true, null, 123.456, 789)")) true;
   TRollback false];
   
   [TOpenTable 17 [(name (str "col1")); (name (str "col2")); (name (str "col3")); (name (str "col4")); (name (str "col5"))] [ModelColumn.StringColType; ModelColumn.BoolColType; {| ct_type := BytesType; ct_size := 2048; ct_fixed := false; ct_notnull := false |}; {| ct_type := Float64Type; ct_size := 0; ct_fixed := false; ct_notnull := true |}; {| ct_type := Int64Type; ct_size := 4; ct_fixed := false; ct_notnull := false |}] (Some [(MakeColumnKey 0 false)]) false;
   TInsert (must_rows (runes "
('qrst', true, null, 123.456, 789, false)")) true;
   TRollback false];
   
   [TOpenTable 17 [(name (str "col1")); (name (str "col2")); (name (str "col3")); (name (str "col4")); (name (str "col5"))] [ModelColumn.StringColType; ModelColumn.BoolColType; {| ct_type := BytesType; ct_size := 2048; ct_fixed := false; ct_notnull := false |}; {| ct_type := Float64Type; ct_size := 0; ct_fixed := false; ct_notnull := true |}; {| ct_type := Int64Type; ct_size := 4; ct_fixed := false; ct_notnull := false |}] (Some [(MakeColumnKey 0 false)]) false;
   TSelect None None None None (must_rows (runes "
('abcdef', true, null, 123.456, 789),
('ABC', false, '\x010203', 1.23, 45),
('xyz', false, null, 23.45, null)")) true;
   TRollback false]] =
  true.
Proof. vm_compute. reflexivity. Qed.

(** [TestRows], storage/test/table.go:421-869. *)
Example TestRows :
  tests_pass (w_sh (newStore T))
  [
   [TCreateTable 17 [(name (str "col1")); (name (str "col2")); (name (str "col3")); (name (str "col4"))] [{| ct_type := Int64Type; ct_size := 4; ct_fixed := false; ct_notnull := true |}; {| ct_type := Int64Type; ct_size := 4; ct_fixed := false; ct_notnull := true |}; {| ct_type := Float64Type; ct_size := 0; ct_fixed := false; ct_notnull := true |}; ModelColumn.StringColType] (Some [(MakeColumnKey 0 false)]) false;
   TCommit false];
   
   [TOpenTable 17 [(name (str "col1")); (name (str "col2")); (name (str "col3")); (name (str "col4"))] [{| ct_type := Int64Type; ct_size := 4; ct_fixed := false; ct_notnull := true |}; {| ct_type := Int64Type; ct_size := 4; ct_fixed := false; ct_notnull := true |}; {| ct_type := Float64Type; ct_size := 0; ct_fixed := false; ct_notnull := true |}; ModelColumn.StringColType] (Some [(MakeColumnKey 0 false)]) false;
   TInsert (must_rows (runes "
(0, 0, 0, 'zero'),
(2, 20, 2.2, 'two'),
(4, 40, 4.4, 'four'),
(6, 60, 6.6, 'six'),
(8, 80, 8.8, 'eight'),
(10, 100, 10.10, 'ten')")) false;
   TCommit false];
   
   [TOpenTable 17 [(name (str "col1")); (name (str "col2")); (name (str "col3")); (name (str "col4"))] [{| ct_type := Int64Type; ct_size := 4; ct_fixed := false; ct_notnull := true |}; {| ct_type := Int64Type; ct_size := 4; ct_fixed := false; ct_notnull := true |}; {| ct_type := Float64Type; ct_size := 0; ct_fixed := false; ct_notnull := true |}; ModelColumn.StringColType] (Some [(MakeColumnKey 0 false)]) false;
   TRows None None None None false;
   TNext (must_row (runes "(0, 0, 0, 'zero')")) false false false;
   TCurrent false false;
   TNext (must_row (runes "(2, 20, 2.2, 'two')")) false false false;
   TCurrent false false;
   TNext (must_row (runes "(4, 40, 4.4, 'four')")) false false false;
   TNext (must_row (runes "(6, 60, 6.6, 'six')")) false false false;
   TNext (must_row (runes "(8, 80, 8.8, 'eight')")) false false false;
   TNext (must_row (runes "(10, 100, 10.10, 'ten')`)")) false false false;
   TNext [] false true false;
   TClose false false;
   TCommit false];
   
   [TOpenTable 17 [(name (str "col1")); (name (str "col2")); (name (str "col3")); (name (str "col4"))] [{| ct_type := Int64Type; ct_size := 4; ct_fixed := false; ct_notnull := true |}; {| ct_type := Int64Type; ct_size := 4; ct_fixed := false; ct_notnull := true |}; {| ct_type := Float64Type; ct_size := 0; ct_fixed := false; ct_notnull := true |}; ModelColumn.StringColType] (Some [(MakeColumnKey 0 false)]) false;
   TRows None None None None false;
   TCurrent false true;
   TClose false false;
   TRollback false];
   
   [TOpenTable 17 [(name (str "col1")); (name (str "col2")); (name (str "col3")); (name (str "col4"))] [{| ct_type := Int64Type; ct_size := 4; ct_fixed := false; ct_notnull := true |}; {| ct_type := Int64Type; ct_size := 4; ct_fixed := false; ct_notnull := true |}; {| ct_type := Float64Type; ct_size := 0; ct_fixed := false; ct_notnull := true |}; ModelColumn.StringColType] (Some [(MakeColumnKey 0 false)]) false;
   TRows None None None None false;
   TNext (must_row (runes "(0, 0, 0, 'zero')")) false false false;
   TClose false false;
   TNext [] false false true;
   TRollback false];
   
   [TOpenTable 17 [(name (str "col1")); (name (str "col2")); (name (str "col3")); (name (str "col4"))] [{| ct_type := Int64Type; ct_size := 4; ct_fixed := false; ct_notnull := true |}; {| ct_type := Int64Type; ct_size := 4; ct_fixed := false; ct_notnull := true |}; {| ct_type := Float64Type; ct_size := 0; ct_fixed := false; ct_notnull := true |}; ModelColumn.StringColType] (Some [(MakeColumnKey 0 false)]) false;
   TRows None None None None false;
   TNext (must_row (runes "(0, 0, 0, 'zero')")) false false false;
   TCurrent false false;
   TClose false false;
   TCurrent false true;
   TRollback false];
   
   [TOpenTable 17 [(name (str "col1")); (name (str "col2")); (name (str "col3")); (name (str "col4"))] [{| ct_type := Int64Type; ct_size := 4; ct_fixed := false; ct_notnull := true |}; {| ct_type := Int64Type; ct_size := 4; ct_fixed := false; ct_notnull := true |}; {| ct_type := Float64Type; ct_size := 0; ct_fixed := false; ct_notnull := true |}; ModelColumn.StringColType] (Some [(MakeColumnKey 0 false)]) false;
   TRows None None None None false;
   TNext (must_row (runes "(0, 0, 0, 'zero')")) false false false;
   TClose false false;
   TClose false true;
   TRollback false];
   
   [TOpenTable 17 [(name (str "col1")); (name (str "col2")); (name (str "col3")); (name (str "col4"))] [{| ct_type := Int64Type; ct_size := 4; ct_fixed := false; ct_notnull := true |}; {| ct_type := Int64Type; ct_size := 4; ct_fixed := false; ct_notnull := true |}; {| ct_type := Float64Type; ct_size := 0; ct_fixed := false; ct_notnull := true |}; ModelColumn.StringColType] (Some [(MakeColumnKey 0 false)]) false;
   TRows None None None None false;
   TNext (must_row (runes "(0, 0, 0, 'zero')")) false false false;
   TRollback true;
   TClose false false;
   TRollback false];
   
   [TOpenTable 17 [(name (str "col1")); (name (str "col2")); (name (str "col3")); (name (str "col4"))] [{| ct_type := Int64Type; ct_size := 4; ct_fixed := false; ct_notnull := true |}; {| ct_type := Int64Type; ct_size := 4; ct_fixed := false; ct_notnull := true |}; {| ct_type := Float64Type; ct_size := 0; ct_fixed := false; ct_notnull := true |}; ModelColumn.StringColType] (Some [(MakeColumnKey 0 false)]) false;
   TRows None None None None false;
   TNext (must_row (runes "(0, 0, 0, 'zero')")) false false false;
   TCommit true;
   TClose false false;
   TCommit false];
   
   [TOpenTable 17 [(name (str "col1")); (name (str "col2")); (name (str "col3")); (name (str "col4"))] [{| ct_type := Int64Type; ct_size := 4; ct_fixed := false; ct_notnull := true |}; {| ct_type := Int64Type; ct_size := 4; ct_fixed := false; ct_notnull := true |}; {| ct_type := Float64Type; ct_size := 0; ct_fixed := false; ct_notnull := true |}; ModelColumn.StringColType] (Some [(MakeColumnKey 0 false)]) false;
   TSelect None (Some (must_row (runes "(6, 0, 0, '')"))) None None (must_rows (runes "
(6, 60, 6.6, 'six'),
(8, 80, 8.8, 'eight'),
(10, 100, 10.10, 'ten')")) false;
   TCommit false];
   
   [TOpenTable 17 [(name (str "col1")); (name (str "col2")); (name (str "col3")); (name (str "col4"))] [{| ct_type := Int64Type; ct_size := 4; ct_fixed := false; ct_notnull := true |}; {| ct_type := Int64Type; ct_size := 4; ct_fixed := false; ct_notnull := true |}; {| ct_type := Float64Type; ct_size := 0; ct_fixed := false; ct_notnull := true |}; ModelColumn.StringColType] (Some [(MakeColumnKey 0 false)]) false;
   TSelect None None (Some (must_row (runes "(4, 0, 0, '')"))) None (must_rows (runes "
(0, 0, 0, 'zero'),
(2, 20, 2.2, 'two'),
(4, 40, 4.4, 'four')")) false;
   TCommit false];
   
   [TOpenTable 17 [(name (str "col1")); (name (str "col2")); (name (str "col3")); (name (str "col4"))] [{| ct_type := Int64Type; ct_size := 4; ct_fixed := false; ct_notnull := true |}; {| ct_type := Int64Type; ct_size := 4; ct_fixed := false; ct_notnull := true |}; {| ct_type := Float64Type; ct_size := 0; ct_fixed := false; ct_notnull := true |}; ModelColumn.StringColType] (Some [(MakeColumnKey 0 false)]) false;
   TSelect None (Some (must_row (runes "(4, 0, 0, '')"))) (Some (must_row (runes "(8, 0, 0, '')"))) None (must_rows (runes "
(4, 40, 4.4, 'four'),
(6, 60, 6.6, 'six'),
(8, 80, 8.8, 'eight')")) false;
   TCommit false];
   
   [TOpenTable 17 [(name (str "col1")); (name (str "col2")); (name (str "col3")); (name (str "col4"))] [{| ct_type := Int64Type; ct_size := 4; ct_fixed := false; ct_notnull := true |}; {| ct_type := Int64Type; ct_size := 4; ct_fixed := false; ct_notnull := true |}; {| ct_type := Float64Type; ct_size := 0; ct_fixed := false; ct_notnull := true |}; ModelColumn.StringColType] (Some [(MakeColumnKey 0 false)]) false;
   TSelect None (Some (must_row (runes "(3, 0, 0, '')"))) (Some (must_row (runes "(9, 0, 0, '')"))) None (must_rows (runes "
(4, 40, 4.4, 'four'),
(6, 60, 6.6, 'six'),
(8, 80, 8.8, 'eight')")) false;
   TCommit false];
   
   [TOpenTable 17 [(name (str "col1")); (name (str "col2")); (name (str "col3")); (name (str "col4"))] [{| ct_type := Int64Type; ct_size := 4; ct_fixed := false; ct_notnull := true |}; {| ct_type := Int64Type; ct_size := 4; ct_fixed := false; ct_notnull := true |}; {| ct_type := Float64Type; ct_size := 0; ct_fixed := false; ct_notnull := true |}; ModelColumn.StringColType] (Some [(MakeColumnKey 0 false)]) false;
   TSelect (Some [3; 1]) None None None (must_rows (runes "
('zero', 0),
('two', 20),
('four', 40),
('six', 60),
('eight', 80),
('ten', 100)")) false;
   TCommit false];
   
   [TOpenTable 17 [(name (str "col1")); (name (str "col2")); (name (str "col3")); (name (str "col4"))] [{| ct_type := Int64Type; ct_size := 4; ct_fixed := false; ct_notnull := true |}; {| ct_type := Int64Type; ct_size := 4; ct_fixed := false; ct_notnull := true |}; {| ct_type := Float64Type; ct_size := 0; ct_fixed := false; ct_notnull := true |}; ModelColumn.StringColType] (Some [(MakeColumnKey 0 false)]) false;
   TSelect (Some [3; 1]) (Some (must_row (runes "(3, 0, 0, '')"))) (Some (must_row (runes "(9, 0, 0, '')"))) None (must_rows (runes "('four', 40), ('six', 60), ('eight', 80)")) false;
   TCommit false];
   
   [TCreateTable 18 [(name (str "col1")); (name (str "col2")); (name (str "col3")); (name (str "col4")); (name (str "col5")); (name (str "col6"))] [{| ct_type := Int64Type; ct_size := 4; ct_fixed := false; ct_notnull := false |}; {| ct_type := BoolType; ct_size := 0; ct_fixed := false; ct_notnull := false |}; {| ct_type := StringType; ct_size := 1024; ct_fixed := false; ct_notnull := false |}; {| ct_type := BytesType; ct_size := 1024; ct_fixed := false; ct_notnull := false |}; {| ct_type := Float64Type; ct_size := 0; ct_fixed := false; ct_notnull := false |}; {| ct_type := Int64Type; ct_size := 4; ct_fixed := false; ct_notnull := false |}] (Some [(MakeColumnKey 0 false)]) false;
   TCommit false];
   
   [TOpenTable 18 [(name (str "col1")); (name (str "col2")); (name (str "col3")); (name (str "col4")); (name (str "col5")); (name (str "col6"))] [{| ct_type := Int64Type; ct_size := 4; ct_fixed := false; ct_notnull := false |}; {| ct_type := BoolType; ct_size := 0; ct_fixed := false; ct_notnull := false |}; {| ct_type := StringType; ct_size := 1024; ct_fixed := false; ct_notnull := false |}; {| ct_type := BytesType; ct_size := 1024; ct_fixed := false; ct_notnull := false |}; {| ct_type := Float64Type; ct_size := 0; ct_fixed := false; ct_notnull := false |}; {| ct_type := Int64Type; ct_size := 4; ct_fixed := false; ct_notnull := false |}] (Some [(MakeColumnKey 0 false)]) false;
   TInsert (must_rows (runes "
(1, true, 'true', '\x0102', 1.1, 1),
(2, true, 'abc', '\x01', 2.2, 2),
(3, false, '', '\x010203', 3.3, 3),
(4, false, 'abc', '\x0102', 1.1, 2),
(5, false, 'false', '\x01', 3.3, 1),
(6, true, 'true', '\x01', 2.2, 2)
")) false;
   TCommit false];
   
   [TOpenTable 18 [(name (str "col1")); (name (str "col2")); (name (str "col3")); (name (str "col4")); (name (str "col5")); (name (str "col6"))] [{| ct_type := Int64Type; ct_size := 4; ct_fixed := false; ct_notnull := false |}; {| ct_type := BoolType; ct_size := 0; ct_fixed := false; ct_notnull := false |}; {| ct_type := StringType; ct_size := 1024; ct_fixed := false; ct_notnull := false |}; {| ct_type := BytesType; ct_size := 1024; ct_fixed := false; ct_notnull := false |}; {| ct_type := Float64Type; ct_size := 0; ct_fixed := false; ct_notnull := false |}; {| ct_type := Int64Type; ct_size := 4; ct_fixed := false; ct_notnull := false |}] (Some [(MakeColumnKey 0 false)]) false;
   TSelect None None None None (must_rows (runes "
(1, true, 'true', '\x0102', 1.1, 1),
(2, true, 'abc', '\x01', 2.2, 2),
(3, false, '', '\x010203', 3.3, 3),
(4, false, 'abc', '\x0102', 1.1, 2),
(5, false, 'false', '\x01', 3.3, 1),
(6, true, 'true', '\x01', 2.2, 2)")) false;
   TCommit false];
   
   [TOpenTable 18 [(name (str "col1")); (name (str "col2")); (name (str "col3")); (name (str "col4")); (name (str "col5")); (name (str "col6"))] [{| ct_type := Int64Type; ct_size := 4; ct_fixed := false; ct_notnull := false |}; {| ct_type := BoolType; ct_size := 0; ct_fixed := false; ct_notnull := false |}; {| ct_type := StringType; ct_size := 1024; ct_fixed := false; ct_notnull := false |}; {| ct_type := BytesType; ct_size := 1024; ct_fixed := false; ct_notnull := false |}; {| ct_type := Float64Type; ct_size := 0; ct_fixed := false; ct_notnull := false |}; {| ct_type := Int64Type; ct_size := 4; ct_fixed := false; ct_notnull := false |}] (Some [(MakeColumnKey 0 false)]) false;
   TSelect None None None (Some {| p_column := 1; p_bool := (Some (fun x => Bool.eqb x true)); p_string := (Some (fun _ => false)); p_bytes := (Some (fun _ => false)); p_float := (Some (fun _ => false)); p_int := (Some (fun _ => false)) |}) (must_rows (runes "
(1, true, 'true', '\x0102', 1.1, 1),
(2, true, 'abc', '\x01', 2.2, 2),
(6, true, 'true', '\x01', 2.2, 2)")) false;
   TCommit false];
   
   [TOpenTable 18 [(name (str "col1")); (name (str "col2")); (name (str "col3")); (name (str "col4")); (name (str "col5")); (name (str "col6"))] [{| ct_type := Int64Type; ct_size := 4; ct_fixed := false; ct_notnull := false |}; {| ct_type := BoolType; ct_size := 0; ct_fixed := false; ct_notnull := false |}; {| ct_type := StringType; ct_size := 1024; ct_fixed := false; ct_notnull := false |}; {| ct_type := BytesType; ct_size := 1024; ct_fixed := false; ct_notnull := false |}; {| ct_type := Float64Type; ct_size := 0; ct_fixed := false; ct_notnull := false |}; {| ct_type := Int64Type; ct_size := 4; ct_fixed := false; ct_notnull := false |}] (Some [(MakeColumnKey 0 false)]) false;
   TSelect None None None (Some {| p_column := 2; p_bool := (Some (fun _ => false)); p_string := (Some (fun x => bytes_eqb x (str "abc"))); p_bytes := (Some (fun _ => false)); p_float := (Some (fun _ => false)); p_int := (Some (fun _ => false)) |}) (must_rows (runes "
(2, true, 'abc', '\x01', 2.2, 2),
(4, false, 'abc', '\x0102', 1.1, 2)")) false;
   TCommit false];
   
   [TOpenTable 18 [(name (str "col1")); (name (str "col2")); (name (str "col3")); (name (str "col4")); (name (str "col5")); (name (str "col6"))] [{| ct_type := Int64Type; ct_size := 4; ct_fixed := false; ct_notnull := false |}; {| ct_type := BoolType; ct_size := 0; ct_fixed := false; ct_notnull := false |}; {| ct_type := StringType; ct_size := 1024; ct_fixed := false; ct_notnull := false |}; {| ct_type := BytesType; ct_size := 1024; ct_fixed := false; ct_notnull := false |}; {| ct_type := Float64Type; ct_size := 0; ct_fixed := false; ct_notnull := false |}; {| ct_type := Int64Type; ct_size := 4; ct_fixed := false; ct_notnull := false |}] (Some [(MakeColumnKey 0 false)]) false;
   TSelect None None None (Some {| p_column := 3; p_bool := (Some (fun _ => false)); p_string := (Some (fun _ => false)); p_bytes := (Some (fun x => bytes_eqb x (map zb [1]))); p_float := (Some (fun _ => false)); p_int := (Some (fun _ => false)) |}) (must_rows (runes "
(2, true, 'abc', '\x01', 2.2, 2),
(5, false, 'false', '\x01', 3.3, 1),
(6, true, 'true', '\x01', 2.2, 2)")) false;
   TCommit false];
   
   [TOpenTable 18 [(name (str "col1")); (name (str "col2")); (name (str "col3")); (name (str "col4")); (name (str "col5")); (name (str "col6"))] [{| ct_type := Int64Type; ct_size := 4; ct_fixed := false; ct_notnull := false |}; {| ct_type := BoolType; ct_size := 0; ct_fixed := false; ct_notnull := false |}; {| ct_type := StringType; ct_size := 1024; ct_fixed := false; ct_notnull := false |}; {| ct_type := BytesType; ct_size := 1024; ct_fixed := false; ct_notnull := false |}; {| ct_type := Float64Type; ct_size := 0; ct_fixed := false; ct_notnull := false |}; {| ct_type := Int64Type; ct_size := 4; ct_fixed := false; ct_notnull := false |}] (Some [(MakeColumnKey 0 false)]) false;
   TSelect None None None (Some {| p_column := 4; p_bool := (Some (fun _ => false)); p_string := (Some (fun _ => false)); p_bytes := (Some (fun _ => false)); p_float := (Some (fun x => x =? 4614613358185178726)); p_int := (Some (fun _ => false)) |}) (must_rows (runes "
(3, false, '', '\x010203', 3.3, 3),
(5, false, 'false', '\x01', 3.3, 1)")) false;
   TCommit false];
   
   [TOpenTable 18 [(name (str "col1")); (name (str "col2")); (name (str "col3")); (name (str "col4")); (name (str "col5")); (name (str "col6"))] [{| ct_type := Int64Type; ct_size := 4; ct_fixed := false; ct_notnull := false |}; {| ct_type := BoolType; ct_size := 0; ct_fixed := false; ct_notnull := false |}; {| ct_type := StringType; ct_size := 1024; ct_fixed := false; ct_notnull := false |}; {| ct_type := BytesType; ct_size := 1024; ct_fixed := false; ct_notnull := false |}; {| ct_type := Float64Type; ct_size := 0; ct_fixed := false; ct_notnull := false |}; {| ct_type := Int64Type; ct_size := 4; ct_fixed := false; ct_notnull := false |}] (Some [(MakeColumnKey 0 false)]) false;
   TSelect None None None (Some {| p_column := 5; p_bool := (Some (fun _ => false)); p_string := (Some (fun _ => false)); p_bytes := (Some (fun _ => false)); p_float := (Some (fun _ => false)); p_int := (Some (fun x => x =? 2)) |}) (must_rows (runes "
(2, true, 'abc', '\x01', 2.2, 2),
(4, false, 'abc', '\x0102', 1.1, 2),
(6, true, 'true', '\x01', 2.2, 2)")) false;
   TCommit false];
   
   [TOpenTable 18 [(name (str "col1")); (name (str "col2")); (name (str "col3")); (name (str "col4")); (name (str "col5")); (name (str "col6"))] [{| ct_type := Int64Type; ct_size := 4; ct_fixed := false; ct_notnull := false |}; {| ct_type := BoolType; ct_size := 0; ct_fixed := false; ct_notnull := false |}; {| ct_type := StringType; ct_size := 1024; ct_fixed := false; ct_notnull := false |}; {| ct_type := BytesType; ct_size := 1024; ct_fixed := false; ct_notnull := false |}; {| ct_type := Float64Type; ct_size := 0; ct_fixed := false; ct_notnull := false |}; {| ct_type := Int64Type; ct_size := 4; ct_fixed := false; ct_notnull := false |}] (Some [(MakeColumnKey 0 false)]) false;
   TSelect (Some [4; 1; 0]) (Some (must_row (runes "(2, true, 'abc', '\x01', 2.2, 2)"))) (Some (must_row (runes "(5, false, 'false', '\x01', 3.3, 1)"))) (Some {| p_column := 5; p_bool := (Some (fun _ => false)); p_string := (Some (fun _ => false)); p_bytes := (Some (fun _ => false)); p_float := (Some (fun _ => false)); p_int := (Some (fun x => x =? 2)) |}) (must_rows (runes "(2.2, true, 2), (1.1, false, 4)")) false;
   TCommit false]] =
  true.
Proof. vm_compute. reflexivity. Qed.

(** [TestDelete], storage/test/table.go:871-1026. *)
Example TestDelete :
  tests_pass (w_sh (newStore T))
  [
   [TCreateTable 17 [(name (str "col1")); (name (str "col2")); (name (str "col3")); (name (str "col4"))] [{| ct_type := Int64Type; ct_size := 4; ct_fixed := false; ct_notnull := true |}; {| ct_type := Int64Type; ct_size := 4; ct_fixed := false; ct_notnull := true |}; {| ct_type := Float64Type; ct_size := 0; ct_fixed := false; ct_notnull := true |}; ModelColumn.StringColType] (Some [(MakeColumnKey 0 false)]) false;
   TCommit false];
   
   [TOpenTable 17 [(name (str "col1")); (name (str "col2")); (name (str "col3")); (name (str "col4"))] [{| ct_type := Int64Type; ct_size := 4; ct_fixed := false; ct_notnull := true |}; {| ct_type := Int64Type; ct_size := 4; ct_fixed := false; ct_notnull := true |}; {| ct_type := Float64Type; ct_size := 0; ct_fixed := false; ct_notnull := true |}; ModelColumn.StringColType] (Some [(MakeColumnKey 0 false)]) false;
   TInsert (must_rows (runes "
(0, 0, 0, 'zero'),
(2, 20, 2.2, 'two'),
(4, 40, 4.4, 'four'),
(6, 60, 6.6, 'six'),
(8, 80, 8.8, 'eight'),
(10, 100, 10.10, 'ten')")) false;
   TCommit false];
   
   [TOpenTable 17 [(name (str "col1")); (name (str "col2")); (name (str "col3")); (name (str "col4"))] [{| ct_type := Int64Type; ct_size := 4; ct_fixed := false; ct_notnull := true |}; {| ct_type := Int64Type; ct_size := 4; ct_fixed := false; ct_notnull := true |}; {| ct_type := Float64Type; ct_size := 0; ct_fixed := false; ct_notnull := true |}; ModelColumn.StringColType] (Some [(MakeColumnKey 0 false)]) false;
   TRows None None None None false;
   TNext (must_row (runes "(0, 0, 0, 'zero')")) false false false;
   TNext (must_row (runes "(2, 20, 2.2, 'two')")) false false false;
   TCurrent false false;
   TDelete false false;
   TClose false false;
   TCommit false];
   
   [TOpenTable 17 [(name (str "col1")); (name (str "col2")); (name (str "col3")); (name (str "col4"))] [{| ct_type := Int64Type; ct_size := 4; ct_fixed := false; ct_notnull := true |}; {| ct_type := Int64Type; ct_size := 4; ct_fixed := false; ct_notnull := true |}; {| ct_type := Float64Type; ct_size := 0; ct_fixed := false; ct_notnull := true |}; ModelColumn.StringColType] (Some [(MakeColumnKey 0 false)]) false;
   TSelect None None None None (must_rows (runes "
(0, 0, 0, 'zero'),
(4, 40, 4.4, 'four'),
(6, 60, 6.6, 'six'),
(8, 80, 8.8, 'eight'),
(10, 100, 10.10, 'ten')")) false;
   TRows None None None None false;
   TNext (must_row (runes "(0, 0, 0, 'zero')")) false false false;
   TNext (must_row (runes "(4, 40, 4.4, 'four')")) false false false;
   TNext (must_row (runes "(6, 60, 6.6, 'six')")) false false false;
   TCurrent false false;
   TClose false false;
   TDelete false false;
   TSelect None None None None (must_rows (runes "
(0, 0, 0, 'zero'),
(4, 40, 4.4, 'four'),
(8, 80, 8.8, 'eight'),
(10, 100, 10.10, 'ten')")) false;
   TCommit false];
   
   [TOpenTable 17 [(name (str "col1")); (name (str "col2")); (name (str "col3")); (name (str "col4"))] [{| ct_type := Int64Type; ct_size := 4; ct_fixed := false; ct_notnull := true |}; {| ct_type := Int64Type; ct_size := 4; ct_fixed := false; ct_notnull := true |}; {| ct_type := Float64Type; ct_size := 0; ct_fixed := false; ct_notnull := true |}; ModelColumn.StringColType] (Some [(MakeColumnKey 0 false)]) false;
   TSelect None None None None (must_rows (runes "
(0, 0, 0, 'zero'),
(4, 40, 4.4, 'four'),
(8, 80, 8.8, 'eight'),
(10, 100, 10.10, 'ten')")) false;
   TRows None None None None false;
   TNext (must_row (runes "(0, 0, 0, 'zero')")) false false false;
   TNext (must_row (runes "(4, 40, 4.4, 'four')")) false false false;
   TCurrent false false;
   TDelete false false;
   TClose false false;
   TSelect None None None None (must_rows (runes "
(0, 0, 0, 'zero'),
(8, 80, 8.8, 'eight'),
(10, 100, 10.10, 'ten')")) false;
   TRollback false];
   
   [TOpenTable 17 [(name (str "col1")); (name (str "col2")); (name (str "col3")); (name (str "col4"))] [{| ct_type := Int64Type; ct_size := 4; ct_fixed := false; ct_notnull := true |}; {| ct_type := Int64Type; ct_size := 4; ct_fixed := false; ct_notnull := true |}; {| ct_type := Float64Type; ct_size := 0; ct_fixed := false; ct_notnull := true |}; ModelColumn.StringColType] (Some [(MakeColumnKey 0 false)]) false;
   TSelect None None None None (must_rows (runes "
(0, 0, 0, 'zero'),
(4, 40, 4.4, 'four'),
(8, 80, 8.8, 'eight'),
(10, 100, 10.10, 'ten')")) false;
   TRollback false];
   
   [TOpenTable 17 [(name (str "col1")); (name (str "col2")); (name (str "col3")); (name (str "col4"))] [{| ct_type := Int64Type; ct_size := 4; ct_fixed := false; ct_notnull := true |}; {| ct_type := Int64Type; ct_size := 4; ct_fixed := false; ct_notnull := true |}; {| ct_type := Float64Type; ct_size := 0; ct_fixed := false; ct_notnull := true |}; ModelColumn.StringColType] (Some [(MakeColumnKey 0 false)]) false;
   TRows None None None None false;
   TNext (must_row (runes "(0, 0, 0, 'zero')")) false false false;
   TCurrent false false;
   TDelete false false;
   TDelete false true;
   TClose false false;
   TRollback false]] =
  true.
Proof. vm_compute. reflexivity. Qed.

(** [TestUpdate], storage/test/table.go:1028-1210. *)
Example TestUpdate :
  tests_pass (w_sh (newStore T))
  [
   [TCreateTable 17 [(name (str "col1")); (name (str "col2")); (name (str "col3")); (name (str "col4"))] [{| ct_type := Int64Type; ct_size := 4; ct_fixed := false; ct_notnull := true |}; {| ct_type := Int64Type; ct_size := 4; ct_fixed := false; ct_notnull := true |}; {| ct_type := Float64Type; ct_size := 0; ct_fixed := false; ct_notnull := true |}; ModelColumn.StringColType] (Some [(MakeColumnKey 0 false)]) false;
   TCommit false];
   
   [TOpenTable 17 [(name (str "col1")); (name (str "col2")); (name (str "col3")); (name (str "col4"))] [{| ct_type := Int64Type; ct_size := 4; ct_fixed := false; ct_notnull := true |}; {| ct_type := Int64Type; ct_size := 4; ct_fixed := false; ct_notnull := true |}; {| ct_type := Float64Type; ct_size := 0; ct_fixed := false; ct_notnull := true |}; ModelColumn.StringColType] (Some [(MakeColumnKey 0 false)]) false;
   TInsert (must_rows (runes "
(0, 0, 0, 'zero'),
(2, 20, 2.2, 'two'),
(4, 40, 4.4, 'four'),
(6, 60, 6.6, 'six')")) false;
   TCommit false];
   
   [TOpenTable 17 [(name (str "col1")); (name (str "col2")); (name (str "col3")); (name (str "col4"))] [{| ct_type := Int64Type; ct_size := 4; ct_fixed := false; ct_notnull := true |}; {| ct_type := Int64Type; ct_size := 4; ct_fixed := false; ct_notnull := true |}; {| ct_type := Float64Type; ct_size := 0; ct_fixed := false; ct_notnull := true |}; ModelColumn.StringColType] (Some [(MakeColumnKey 0 false)]) false;
   TRows None None None None false;
   TNext (must_row (runes "(0, 0, 0, 'zero')")) false false false;
   TNext (must_row (runes "(2, 20, 2.2, 'two')")) false false false;
   TCurrent false false;
   TUpdate [3; 1] [VString (str "two two"); VInt 200] false false;
   TClose false false;
   TCommit false];
   
   [TOpenTable 17 [(name (str "col1")); (name (str "col2")); (name (str "col3")); (name (str "col4"))] [{| ct_type := Int64Type; ct_size := 4; ct_fixed := false; ct_notnull := true |}; {| ct_type := Int64Type; ct_size := 4; ct_fixed := false; ct_notnull := true |}; {| ct_type := Float64Type; ct_size := 0; ct_fixed := false; ct_notnull := true |}; ModelColumn.StringColType] (Some [(MakeColumnKey 0 false)]) false;
   TSelect None None None None (must_rows (runes "
(0, 0, 0, 'zero'),
(2, 200, 2.2, 'two two'),
(4, 40, 4.4, 'four'),
(6, 60, 6.6, 'six')")) false;
   TRows None None None None false;
   TNext (must_row (runes "(0, 0, 0, 'zero')")) false false false;
   TNext (must_row (runes "(2, 200, 2.2, 'two two')")) false false false;
   TNext (must_row (runes "(4, 40, 4.4, 'four')")) false false false;
   TCurrent false false;
   TClose false false;
   TUpdate [0; 2] [VInt 1; VFloat 4621143577644865946] false false;
   TSelect None None None None (must_rows (runes "
(0, 0, 0, 'zero'),
(1, 40, 8.8, 'four'),
(2, 200, 2.2, 'two two'),
(6, 60, 6.6, 'six')")) false;
   TCommit false];
   
   [TOpenTable 17 [(name (str "col1")); (name (str "col2")); (name (str "col3")); (name (str "col4"))] [{| ct_type := Int64Type; ct_size := 4; ct_fixed := false; ct_notnull := true |}; {| ct_type := Int64Type; ct_size := 4; ct_fixed := false; ct_notnull := true |}; {| ct_type := Float64Type; ct_size := 0; ct_fixed := false; ct_notnull := true |}; ModelColumn.StringColType] (Some [(MakeColumnKey 0 false)]) false;
   TSelect None None None None (must_rows (runes "
(0, 0, 0, 'zero'),
(1, 40, 8.8, 'four'),
(2, 200, 2.2, 'two two'),
(6, 60, 6.6, 'six')")) false;
   TRows None None None None false;
   TNext (must_row (runes "(0, 0, 0, 'zero')")) false false false;
   TNext (must_row (runes "(1, 40, 8.8, 'four')")) false false false;
   TCurrent false false;
   TUpdate [1] [VInt 400] false false;
   TClose false false;
   TSelect None None None None (must_rows (runes "
(0, 0, 0, 'zero'),
(1, 400, 8.8, 'four'),
(2, 200, 2.2, 'two two'),
(6, 60, 6.6, 'six')")) false;
   TRollback false];
   
   [TOpenTable 17 [(name (str "col1")); (name (str "col2")); (name (str "col3")); (name (str "col4"))] [{| ct_type := Int64Type; ct_size := 4; ct_fixed := false; ct_notnull := true |}; {| ct_type := Int64Type; ct_size := 4; ct_fixed := false; ct_notnull := true |}; {| ct_type := Float64Type; ct_size := 0; ct_fixed := false; ct_notnull := true |}; ModelColumn.StringColType] (Some [(MakeColumnKey 0 false)]) false;
   TSelect None None None None (must_rows (runes "
(0, 0, 0, 'zero'),
(1, 40, 8.8, 'four'),
(2, 200, 2.2, 'two two'),
(6, 60, 6.6, 'six')")) false;
   TRollback false];
   
   [TOpenTable 17 [(name (str "col1")); (name (str "col2")); (name (str "col3")); (name (str "col4"))] [{| ct_type := Int64Type; ct_size := 4; ct_fixed := false; ct_notnull := true |}; {| ct_type := Int64Type; ct_size := 4; ct_fixed := false; ct_notnull := true |}; {| ct_type := Float64Type; ct_size := 0; ct_fixed := false; ct_notnull := true |}; ModelColumn.StringColType] (Some [(MakeColumnKey 0 false)]) false;
   TRows None None None None false;
   TNext (must_row (runes "(0, 0, 0, 'zero')")) false false false;
   TCurrent false false;
   TUpdate [1; 2] [VInt 100] false true;
   TClose false false;
   TRollback false];
   
   [TOpenTable 17 [(name (str "col1")); (name (str "col2")); (name (str "col3")); (name (str "col4"))] [{| ct_type := Int64Type; ct_size := 4; ct_fixed := false; ct_notnull := true |}; {| ct_type := Int64Type; ct_size := 4; ct_fixed := false; ct_notnull := true |}; {| ct_type := Float64Type; ct_size := 0; ct_fixed := false; ct_notnull := true |}; ModelColumn.StringColType] (Some [(MakeColumnKey 0 false)]) false;
   TRows None None None None false;
   TNext (must_row (runes "(0, 0, 0, 'zero')")) false false false;
   TCurrent false false;
   TUpdate [0] [VInt 1] true false;
   TClose false false;
   TRollback false]] =
  true.
Proof. vm_compute. reflexivity. Qed.

(** [TestTable], storage/test/table.go:1212-1348. *)
Example TestTable :
  tests_pass (w_sh (newStore T))
  [
   [TCreateTable 17 [(name (str "col1")); (name (str "col2")); (name (str "col3")); (name (str "col4"))] [{| ct_type := Int64Type; ct_size := 4; ct_fixed := false; ct_notnull := false |}; {| ct_type := BoolType; ct_size := 0; ct_fixed := false; ct_notnull := false |}; {| ct_type := StringType; ct_size := 1024; ct_fixed := false; ct_notnull := false |}; {| ct_type := Int64Type; ct_size := 4; ct_fixed := false; ct_notnull := false |}] (Some [(MakeColumnKey 0 false)]) false;
   TCommit false];
   
   [TOpenTable 17 [(name (str "col1")); (name (str "col2")); (name (str "col3")); (name (str "col4"))] [{| ct_type := Int64Type; ct_size := 4; ct_fixed := false; ct_notnull := false |}; {| ct_type := BoolType; ct_size := 0; ct_fixed := false; ct_notnull := false |}; {| ct_type := StringType; ct_size := 1024; ct_fixed := false; ct_notnull := false |}; {| ct_type := Int64Type; ct_size := 4; ct_fixed := false; ct_notnull := false |}] (Some [(MakeColumnKey 0 false)]) false;
   TInsert table_rows false;
   TCommit false];
   
   [TOpenTable 17 [(name (str "col1")); (name (str "col2")); (name (str "col3")); (name (str "col4"))] [{| ct_type := Int64Type; ct_size := 4; ct_fixed := false; ct_notnull := false |}; {| ct_type := BoolType; ct_size := 0; ct_fixed := false; ct_notnull := false |}; {| ct_type := StringType; ct_size := 1024; ct_fixed := false; ct_notnull := false |}; {| ct_type := Int64Type; ct_size := 4; ct_fixed := false; ct_notnull := false |}] (Some [(MakeColumnKey 0 false)]) false;
   TSelect None None None None table_rows false;
   TCommit false];
   
   [TOpenTable 17 [(name (str "col1")); (name (str "col2")); (name (str "col3")); (name (str "col4"))] [{| ct_type := Int64Type; ct_size := 4; ct_fixed := false; ct_notnull := false |}; {| ct_type := BoolType; ct_size := 0; ct_fixed := false; ct_notnull := false |}; {| ct_type := StringType; ct_size := 1024; ct_fixed := false; ct_notnull := false |}; {| ct_type := Int64Type; ct_size := 4; ct_fixed := false; ct_notnull := false |}] (Some [(MakeColumnKey 0 false)]) false;
   TUpdateSet None None (Some {| p_column := 1; p_bool := (Some (fun x => Bool.eqb x true)); p_string := (Some (fun _ => false)); p_bytes := (Some (fun _ => false)); p_float := (Some (fun _ => false)); p_int := (Some (fun _ => false)) |}) negate;
   TCommit false];
   
   [TOpenTable 17 [(name (str "col1")); (name (str "col2")); (name (str "col3")); (name (str "col4"))] [{| ct_type := Int64Type; ct_size := 4; ct_fixed := false; ct_notnull := false |}; {| ct_type := BoolType; ct_size := 0; ct_fixed := false; ct_notnull := false |}; {| ct_type := StringType; ct_size := 1024; ct_fixed := false; ct_notnull := false |}; {| ct_type := Int64Type; ct_size := 4; ct_fixed := false; ct_notnull := false |}] (Some [(MakeColumnKey 0 false)]) false;
   TSelect None None None None table_rows_updated false;
   TCommit false];
   
   [TOpenTable 17 [(name (str "col1")); (name (str "col2")); (name (str "col3")); (name (str "col4"))] [{| ct_type := Int64Type; ct_size := 4; ct_fixed := false; ct_notnull := false |}; {| ct_type := BoolType; ct_size := 0; ct_fixed := false; ct_notnull := false |}; {| ct_type := StringType; ct_size := 1024; ct_fixed := false; ct_notnull := false |}; {| ct_type := Int64Type; ct_size := 4; ct_fixed := false; ct_notnull := false |}] (Some [(MakeColumnKey 0 false)]) false;
   TDeleteFrom None None (Some {| p_column := 1; p_bool := (Some (fun x => Bool.eqb x false)); p_string := (Some (fun _ => false)); p_bytes := (Some (fun _ => false)); p_float := (Some (fun _ => false)); p_int := (Some (fun _ => false)) |});
   TCommit false];
   
   [TOpenTable 17 [(name (str "col1")); (name (str "col2")); (name (str "col3")); (name (str "col4"))] [{| ct_type := Int64Type; ct_size := 4; ct_fixed := false; ct_notnull := false |}; {| ct_type := BoolType; ct_size := 0; ct_fixed := false; ct_notnull := false |}; {| ct_type := StringType; ct_size := 1024; ct_fixed := false; ct_notnull := false |}; {| ct_type := Int64Type; ct_size := 4; ct_fixed := false; ct_notnull := false |}] (Some [(MakeColumnKey 0 false)]) false;
   TSelect None None None None table_rows_left false;
   TCommit false]] =
  true.
Proof. vm_compute. reflexivity. Qed.
