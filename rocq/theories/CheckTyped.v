(** The tests of typed tables, run on the model.

    Written by tools/gotests.py from the test files of /repo. *)

From Verif Require Import ModelBase ModelIdent ModelColumn ModelStore ModelTestutil ModelTyped ModelEngine LemmasDemo LemmasDemoTyped LemmasDemoScan LemmasDemoEngine CheckBase.
Import ListNotations.
Open Scope Z_scope.

(** The names that occur. *)
Definition all_names : list (bytes * bool) :=
  [((str "col_num"), true); ((str "database"), true); ((str "abcdef"), true); ((str "abc_id"), true); ((str "aaaaa"), true); ((str "DEFGHI"), true); ((str "name"), true); ((str "field"), true); ((str "sequence"), true); ((str "current"), true); ((str "schema"), true); ((str "table"), true); ((str "table_id"), true); ((str "type"), true); ((str "d"), false); ((str "s"), false); ((str "t"), false)].
(** Registered before a test. *)
Definition T : idtable := table_of all_names.
Definition name (s : bytes) : Z := snd (ID T s false).
Definition quoted (s : bytes) : Z := snd (ID T s true).

(** What [MakeTypedInfo] makes of a struct; [None] is a panic. *)
Definition made_info (l : list field) : option (list Z * list coltype * list Z * list (list Z)) :=
  match fst (fst (exec (newStore T) 0 (MakeTypedInfo 2048 (systemTable 0) {| st_name := []; st_fields := l |}))) with
  | Ok ti => Some (ti_cols ti, ti_types ti, ti_primary ti, ti_flds ti)
  | _ => None
  end.

(** [TestMakeTypedTableInfo], engine/typedinfo_test.go:25-215. *)
Example TestMakeTypedTableInfo :
  map made_info
  [[];
   [{| fd_name := runes "aBC"; fd_tag := []; fd_type := FTBase KInt |}];
   [{| fd_name := runes "Abc"; fd_tag := (str "notnull,name=ghi=jkl,primary"); fd_type := FTBase KInt |}];
   [{| fd_name := runes "Abc"; fd_tag := (str "notnull=true"); fd_type := FTBase KInt |}];
   [{| fd_name := runes "Abc"; fd_tag := (str "name"); fd_type := FTBase KInt |}];
   [{| fd_name := runes "Abc"; fd_tag := (str "size=abc"); fd_type := FTBase KInt |}];
   [{| fd_name := runes "Abc"; fd_tag := []; fd_type := FTBase KOther |}];
   [{| fd_name := runes "Abc"; fd_tag := []; fd_type := FTBase KOther |}];
   [{| fd_name := runes "Abc"; fd_tag := []; fd_type := FTPtr KOther |}];
   [{| fd_name := runes "Abc"; fd_tag := []; fd_type := FTBase KOther |}];
   [{| fd_name := runes "Abc"; fd_tag := (str "notnull"); fd_type := FTBase KInt |}];
   [{| fd_name := runes "ColNum"; fd_tag := []; fd_type := FTBase KInt8 |}; {| fd_name := runes "Database"; fd_tag := (str "size=123"); fd_type := FTBase KString |}; {| fd_name := runes "Abcdef"; fd_tag := (str "size=45"); fd_type := FTPtr KString |}; {| fd_name := runes "AbcID"; fd_tag := (str "size=16"); fd_type := FTBase KBytes |}; {| fd_name := runes "Aaaaa"; fd_tag := (str "size=32,notnull"); fd_type := FTBase KBytes |}; {| fd_name := runes "ABCDEF"; fd_tag := []; fd_type := FTPtr KInt32 |}; {| fd_name := runes "DefGHi"; fd_tag := (str "name=DEFGHI"); fd_type := FTBase KInt16 |}];
   [{| fd_name := runes "Name"; fd_tag := []; fd_type := FTBase KString |}; {| fd_name := runes "Field"; fd_tag := []; fd_type := FTBase KString |}];
   st_fields sequencesType;
   st_fields tablesType] =
  [Some ([], [], [], []);
   None;
   None;
   None;
   None;
   None;
   None;
   None;
   None;
   None;
   None;
   Some ([(quoted (str "col_num")); (quoted (str "database")); (quoted (str "abcdef")); (quoted (str "abc_id")); (quoted (str "aaaaa")); (quoted (str "abcdef")); (quoted (str "DEFGHI"))], [{| ct_type := Int64Type; ct_size := 1; ct_fixed := false; ct_notnull := true |}; {| ct_type := StringType; ct_size := 123; ct_fixed := false; ct_notnull := true |}; {| ct_type := StringType; ct_size := 45; ct_fixed := false; ct_notnull := false |}; {| ct_type := BytesType; ct_size := 16; ct_fixed := false; ct_notnull := false |}; {| ct_type := BytesType; ct_size := 32; ct_fixed := false; ct_notnull := true |}; {| ct_type := Int64Type; ct_size := 4; ct_fixed := false; ct_notnull := false |}; {| ct_type := Int64Type; ct_size := 2; ct_fixed := false; ct_notnull := true |}], [], [runes "ColNum"; runes "Database"; runes "Abcdef"; runes "AbcID"; runes "Aaaaa"; runes "ABCDEF"; runes "DefGHi"]);
   Some ([(quoted (str "name")); (quoted (str "field"))], [{| ct_type := StringType; ct_size := 1; ct_fixed := false; ct_notnull := true |}; {| ct_type := StringType; ct_size := 1; ct_fixed := false; ct_notnull := true |}], [], [runes "Name"; runes "Field"]);
   Some ([(quoted (str "sequence")); (quoted (str "current"))], [{| ct_type := StringType; ct_size := 128; ct_fixed := false; ct_notnull := true |}; {| ct_type := Int64Type; ct_size := 8; ct_fixed := false; ct_notnull := true |}], [(MakeColumnKey 0 false)], [runes "Sequence"; runes "Current"]);
   Some ([(quoted (str "database")); (quoted (str "schema")); (quoted (str "table")); (quoted (str "table_id")); (quoted (str "type"))], [{| ct_type := StringType; ct_size := 128; ct_fixed := false; ct_notnull := true |}; {| ct_type := StringType; ct_size := 128; ct_fixed := false; ct_notnull := true |}; {| ct_type := StringType; ct_size := 128; ct_fixed := false; ct_notnull := true |}; {| ct_type := Int64Type; ct_size := 8; ct_fixed := false; ct_notnull := true |}; {| ct_type := BytesType; ct_size := 8192; ct_fixed := false; ct_notnull := true |}], [(MakeColumnKey 0 false); (MakeColumnKey 1 false); (MakeColumnKey 2 false)], [runes "Database"; runes "Schema"; runes "Table"; runes "TableId"; runes "Type"])].
Proof. vm_compute. reflexivity. Qed.

(** [typedRow], engine/typedtable_test.go:276-283. *)
Definition typedRow : stype :=
  {| st_name := str "typedRow"; st_fields :=
  [{| fd_name := runes "C0"; fd_tag := (str "primary"); fd_type := FTBase KInt |}; {| fd_name := runes "C1"; fd_tag := []; fd_type := FTBase KBool |}; {| fd_name := runes "C2"; fd_tag := (str "size=32"); fd_type := FTBase KString |}; {| fd_name := runes "C3"; fd_tag := (str "size=16"); fd_type := FTBase KBytes |}; {| fd_name := runes "C4"; fd_tag := []; fd_type := FTBase KFloat64 |}; {| fd_name := runes "C5"; fd_tag := []; fd_type := FTPtr KInt64 |}] |}.

Definition typed_row (c0 : Z) (c1 : bool) (c2 : bytes) (c3 : option bytes) (c4 : Z) (c5 : option Z) : gostruct :=
  {| gs_type := str "typedRow"; gs_fields := [FInt KInt c0; FBool c1; FString c2; FBytes c3; FFloat KFloat64 c4; FPtr KInt64 (option_map (FInt KInt64) c5)] |}.

(** [makeTypedInfo], engine/typedtable_test.go:20-24. *)
Definition typed_made := exec (newStore T) 0 (MakeTypedInfo 2048 {| tn_database := name (str "d"); tn_schema := name (str "s"); tn_table := name (str "t") |} typedRow).
Definition info : typedinfo :=
  match fst (fst typed_made) with
  | Ok ti => ti
  | _ => {| ti_typ := typedRow; ti_tid := 0; ti_tn := systemTable 0; ti_cols := []; ti_types := []; ti_primary := []; ti_flds := [] |}
  end.

(** The cases, engine/typedtable_test.go:271-319. *)
Inductive ycase :=
  | YCreate | YInsert (rows : list gostruct) (fails : bool) | YLookup (st want : gostruct) (fails : bool)
  | YSelect (minSt maxSt : option gostruct) (rows : list gostruct) | YUpdate (update : gostruct -> upstruct) | YDelete (minSt maxSt : option gostruct)
  | YCommit | YRollback.
Definition is_ok {A} (r : res A) : bool := match r with Ok _ => true | _ => false end.
Definition is_err {A} (r : res A) : bool := match r with Err _ => true | _ => false end.
Definition zero_row : gostruct := typed_row 0 false [] None 0 None.
Definition o_eqb {A} (e : A -> A -> bool) (a b : option A) : bool := match a, b with Some a, Some b => e a b | None, None => true | _, _ => false end.
Definition kind_eqb (a b : kind) : bool := bytes_eqb (kindName a) (kindName b).
Fixpoint fval_eqb (a b : fval) : bool :=
  match a, b with
  | FBool a, FBool b => Bool.eqb a b
  | FInt j a, FInt k b | FFloat j a, FFloat k b => kind_eqb j k && (a =? b)
  | FString a, FString b => bytes_eqb a b
  | FBytes a, FBytes b => o_eqb bytes_eqb a b
  | FPtr j a, FPtr k b => kind_eqb j k && match a, b with Some a, Some b => fval_eqb a b | None, None => true | _, _ => false end
  | _, _ => false
  end.
Definition struct_eqb (a b : gostruct) : bool := list_eqb fval_eqb (gs_fields a) (gs_fields b).
Definition to_struct (r : row) : gostruct := match RowToStruct info r zero_row with Ok g => g | _ => zero_row end.

(** [testTypedTables], engine/typedtable_test.go:321-411, with one transaction. *)
Fixpoint insert_all (w : world) (x : nat) (l : list gostruct) (fails : bool) : bool * world :=
  match l with
  | [] => (true, w)
  | g :: l' =>
      let '(r, w, _) := exec w x (TypedTableInsert info [Some g]) in
      let '(b, w) := insert_all w x l' fails in
      ((if fails then is_err r else is_ok r) && b, w)
  end.
Definition typed_case (w : world) (x : nat) (c : ycase) : bool * world :=
  match c with
  | YCreate => let '(r, w, _) := exec w x (CreateTypedTable info) in (is_ok r, w)
  | YInsert l fails => insert_all w x l fails
  | YLookup st want fails =>
      let '(r, w, _) := exec w x (TypedTableLookup info st) in
      (match r with Ok (g, None) => negb fails && struct_eqb g want | Ok (_, Some _) => fails | _ => false end, w)
  | YSelect mn mx rows =>
      let '(r, w, _) := exec w x (TypedTableSelect info mn mx (fun l r => pret (l ++ [to_struct r], None)) []) in
      (match r with Ok (l, None) => list_eqb struct_eqb l rows | _ => false end, w)
  | YUpdate f =>
      let '(r, w, _) := exec w x (TypedTableUpdate info None None (fun (_ : unit) r => pret (tt, inl (Some (f (to_struct r))))) tt) in
      (match r with Ok (_, None) => true | _ => false end, w)
  | YDelete mn mx =>
      let '(r, w, _) := exec w x (TypedTableDelete info mn mx (fun (_ : unit) r => pret (tt, inl true)) tt) in
      (match r with Ok (_, None) => true | _ => false end, w)
  | YCommit => let '(o, w) := step w (Call x CCommit) in (match o with ODone => true | _ => false end, w)
  | YRollback => let '(o, w) := step w (Call x CRollback) in (match o with ODone => true | _ => false end, w)
  end.
Fixpoint typed_cases (w : world) (x : nat) (l : list ycase) : bool * world :=
  match l with
  | [] => (true, w)
  | c :: l' => let '(b, w) := typed_case w x c in let '(b', w) := typed_cases w x l' in (b && b', w)
  end.
Fixpoint typed_tests (w : world) (x : nat) (l : list (list ycase)) : bool :=
  match l with
  | [] => true
  | cs :: l' =>
      match step w (Begin x) with
      | (ODone, w) => let '(b, w) := typed_cases w x cs in b && typed_tests w (S x) l'
      | _ => false
      end
  end.

(** The function of [TestTypedUpdate], engine/typedtable_test.go:154-175. *)
Definition ten_times (i : Z) : Z := nth (Z.to_nat i) [0; 4621819117588971520; 4626322717216342016; 4629137466983448576; 4630826316843712512; 4632233691727265792] 0.
Definition typed_update (g : gostruct) : upstruct :=
  let i := intField g 0 in
  if i mod 2 =? 0
  then [(runes "C1", FBool true); (runes "C2", FString (format_int i)); (runes "C4", FFloat KFloat64 (ten_times i))]
  else [(runes "C3", FBytes (Some (repeat (zb i) 3))); (runes "C5", FPtr KInt64 (Some (FInt KInt64 (i * 10))))].

(** [TestTypedTable], engine/typedtable_test.go:36-127. *)
Example TestTypedTable :
  typed_tests (snd (fst typed_made)) 0
  [
   [YCreate;
   YInsert [typed_row 0 false [] None 0 None; typed_row 1 true (str "abcd") (Some (map zb [0; 1; 2; 3; 4; 5])) 4638387860618067575 (Some 123); typed_row 2 false (str "efghijkl") None 4593527504729830064 None; typed_row 3 true [] (Some (map zb [6; 7; 8])) 0 (Some 4567)] false;
   YCommit];
   
   [YSelect None None [typed_row 0 false [] None 0 None; typed_row 1 true (str "abcd") (Some (map zb [0; 1; 2; 3; 4; 5])) 4638387860618067575 (Some 123); typed_row 2 false (str "efghijkl") None 4593527504729830064 None; typed_row 3 true [] (Some (map zb [6; 7; 8])) 0 (Some 4567)];
   YSelect (Some (typed_row 1 false [] None 0 None)) None [typed_row 1 true (str "abcd") (Some (map zb [0; 1; 2; 3; 4; 5])) 4638387860618067575 (Some 123); typed_row 2 false (str "efghijkl") None 4593527504729830064 None; typed_row 3 true [] (Some (map zb [6; 7; 8])) 0 (Some 4567)];
   YSelect None (Some (typed_row 1 false [] None 0 None)) [typed_row 0 false [] None 0 None; typed_row 1 true (str "abcd") (Some (map zb [0; 1; 2; 3; 4; 5])) 4638387860618067575 (Some 123)];
   YSelect (Some (typed_row 1 false [] None 0 None)) (Some (typed_row 2 false [] None 0 None)) [typed_row 1 true (str "abcd") (Some (map zb [0; 1; 2; 3; 4; 5])) 4638387860618067575 (Some 123); typed_row 2 false (str "efghijkl") None 4593527504729830064 None];
   YSelect (Some (typed_row 4 false [] None 0 None)) None [];
   YLookup (typed_row 3 false [] None 0 None) (typed_row 3 true [] (Some (map zb [6; 7; 8])) 0 (Some 4567)) false;
   YLookup (typed_row 0 false [] None 0 None) (typed_row 0 false [] None 0 None) false;
   YLookup (typed_row 2 false [] None 0 None) (typed_row 2 false (str "efghijkl") None 4593527504729830064 None) false;
   YLookup (typed_row 1 false [] None 0 None) (typed_row 1 true (str "abcd") (Some (map zb [0; 1; 2; 3; 4; 5])) 4638387860618067575 (Some 123)) false;
   YLookup (typed_row 4 false [] None 0 None) (zero_row) true;
   YCommit];
   
   [YInsert [typed_row 0 false [] None 0 None] true;
   YRollback]] =
  true.
Proof. vm_compute. reflexivity. Qed.

(** [TestTypedUpdate], engine/typedtable_test.go:129-194. *)
Example TestTypedUpdate :
  typed_tests (snd (fst typed_made)) 0
  [
   [YCreate;
   YInsert [typed_row 0 false [] None 0 None; typed_row 1 false [] None 0 None; typed_row 2 false [] None 0 None; typed_row 3 false [] None 0 None; typed_row 4 false [] None 0 None; typed_row 5 false [] None 0 None] false;
   YCommit];
   
   [YUpdate typed_update;
   YCommit];
   
   [YSelect None None [typed_row 0 true (str "0") None 0 None; typed_row 1 false [] (Some (map zb [1; 1; 1])) 0 (Some 10); typed_row 2 true (str "2") None 4626322717216342016 None; typed_row 3 false [] (Some (map zb [3; 3; 3])) 0 (Some 30); typed_row 4 true (str "4") None 4630826316843712512 None; typed_row 5 false [] (Some (map zb [5; 5; 5])) 0 (Some 50)];
   YCommit]] =
  true.
Proof. vm_compute. reflexivity. Qed.

(** [TestTypedDelete], engine/typedtable_test.go:196-269. *)
Example TestTypedDelete :
  typed_tests (snd (fst typed_made)) 0
  [
   [YCreate;
   YInsert [typed_row 0 false [] None 0 None; typed_row 1 false [] None 0 None; typed_row 2 false [] None 0 None; typed_row 3 false [] None 0 None; typed_row 4 false [] None 0 None; typed_row 5 false [] None 0 None; typed_row 6 false [] None 0 None; typed_row 7 false [] None 0 None; typed_row 8 false [] None 0 None; typed_row 9 false [] None 0 None] false;
   YCommit];
   
   [YDelete (Some (typed_row 7 false [] None 0 None)) None;
   YCommit];
   
   [YSelect None None [typed_row 0 false [] None 0 None; typed_row 1 false [] None 0 None; typed_row 2 false [] None 0 None; typed_row 3 false [] None 0 None; typed_row 4 false [] None 0 None; typed_row 5 false [] None 0 None; typed_row 6 false [] None 0 None];
   YCommit];
   
   [YDelete (Some (typed_row 2 false [] None 0 None)) (Some (typed_row 5 false [] None 0 None));
   YCommit];
   
   [YSelect None None [typed_row 0 false [] None 0 None; typed_row 1 false [] None 0 None; typed_row 6 false [] None 0 None];
   YCommit]] =
  true.
Proof. vm_compute. reflexivity. Qed.
