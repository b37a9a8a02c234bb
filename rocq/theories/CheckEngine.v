(** The tests of the engine, run on the model.

    Written by tools/gotests.py from the test files of /repo. *)

From Verif Require Import ModelBase ModelIdent ModelColumn ModelStore ModelTestutil ModelTyped ModelEngine LemmasDemo LemmasDemoTyped LemmasDemoScan LemmasDemoEngine CheckBase.
Import ListNotations.
Open Scope Z_scope.

(** The names that occur. *)
Definition all_names : list (bytes * bool) :=
  [((str "db"), false); ((str "system"), false); ((str "maho"), false); ((str "db2"), false); ((str "db3"), false); ((str "test"), false); ((str "not_a_db"), false); ((str "test2"), false); ((str "test3"), false); ((str "public"), false); ((str "test4"), false); ((str "c1"), false); ((str "c2"), false); ((str "c3"), false); ((str "c4"), false); ((str "no_schema"), false); ((str "test99"), false); ((str "not_schema"), false)].
(** Registered before a test. *)
Definition T : idtable := table_of all_names.
Definition name (s : bytes) : Z := snd (ID T s false).
Definition quoted (s : bytes) : Z := snd (ID T s true).

(** The store after [Init]: [newEngine], engine/engine_test.go:59-73. *)
Definition made_infos := exec (newStore T) 0 makeInfos.
Definition no_info : typedinfo :=
  {| ti_typ := sequencesType; ti_tid := 0; ti_tn := systemTable 0; ti_cols := []; ti_types := []; ti_primary := []; ti_flds := [] |}.
Definition infos : einfos :=
  match fst (fst made_infos) with
  | Ok i => i
  | _ => {| i_sequences := no_info; i_databases := no_info; i_schemas := no_info; i_tables := no_info |}
  end.
Definition new_engine : eout * eworld := Init infos {| e_w := snd (fst made_infos); e_next := 0; e_txs := [] |}.

(** [TestInit], engine/init_test.go:9-20. *)
Example TestInit : fst new_engine = EDone.
Proof. vm_compute. reflexivity. Qed.

(** What a test wants of a call. *)
Inductive wanted := Fine | Fails | Names (l : list Z) | Table (tid : Z) (cols : list Z) (types : list coltype) (key : list Z).
Definition columns (text : list Z) : list Z * list coltype * list Z :=
  match ParseColumns T text with Some (c, _) => c | None => ([], [], []) end.
Fixpoint insert_Z (x : Z) (l : list Z) : list Z := match l with [] => [x] | y :: l' => if x <=? y then x :: l else y :: insert_Z x l' end.
Definition sort_Z (l : list Z) : list Z := fold_right insert_Z [] l.
Definition as_wanted (o : eout) (w : wanted) : bool :=
  match o, w with
  | EDone, Fine => true
  | EErr _, Fails => true
  | ENames l, Names l' => list_eqb Z.eqb (sort_Z l) (sort_Z l')
  | ETable tid ty, Table tid' cols types key =>
      (tid =? tid') && list_eqb Z.eqb (ett_cols ty) cols && list_eqb coltype_eqb (ett_types ty) types && list_eqb Z.eqb (ett_key ty) key
  | _, _ => false
  end.
Fixpoint engine_test (s : eworld) (l : list (ecall * wanted)) : list bool :=
  match l with
  | [] => []
  | (c, w) :: l' => let '(o, s) := estep infos s c in as_wanted o w :: engine_test s l'
  end.
Definition table_wanted (tid : Z) (c : list Z * list coltype * list Z) : wanted := let '(cols, types, key) := c in Table tid cols types key.
Definition create (k : nat) (tn : tablename) (c : list Z * list coltype * list Z) : ecall := let '(cols, types, key) := c in ECreateTable k tn cols types key.

(** [TestDatabase], engine/engine_test.go:93-175. *)
Example TestDatabase :
  forallb (fun b => b) (engine_test (snd new_engine)
  [(ECreateDatabase (name (str "db")) [], Fine);
   (ECreateDatabase (name (str "db")) [], Fails);
   (EListDatabases, Names [name (str "system"); name (str "maho"); name (str "db")]);
   (ECreateDatabase (name (str "db2")) [], Fine);
   (EListDatabases, Names [name (str "system"); name (str "maho"); name (str "db"); name (str "db2")]);
   (ECreateDatabase (name (str "db3")) [], Fine);
   (EListDatabases, Names [name (str "system"); name (str "maho"); name (str "db"); name (str "db2"); name (str "db3")]);
   (EDropDatabase (name (str "db2")) false, Fine);
   (EListDatabases, Names [name (str "system"); name (str "maho"); name (str "db"); name (str "db3")]);
   (EDropDatabase (name (str "db2")) false, Fails);
   (EListDatabases, Names [name (str "system"); name (str "maho"); name (str "db"); name (str "db3")]);
   (EDropDatabase (name (str "db2")) true, Fine);
   (EListDatabases, Names [name (str "system"); name (str "maho"); name (str "db"); name (str "db3")])]) =
  true.
Proof. vm_compute. reflexivity. Qed.

(** [TestSchema], engine/engine_test.go:177-331. *)
Example TestSchema :
  forallb (fun b => b) (engine_test (snd new_engine)
  [(EBegin, Fine);
   (ECreateSchema 0 (name (str "maho")) (name (str "test")), Fine);
   (ECommit 0, Fine);
   (EBegin, Fine);
   (ECreateSchema 1 (name (str "maho")) (name (str "test")), Fails);
   (ERollback 1, Fine);
   (EBegin, Fine);
   (ECreateSchema 2 (name (str "not_a_db")) (name (str "test")), Fails);
   (ERollback 2, Fine);
   (EBegin, Fine);
   (ECreateSchema 3 (name (str "maho")) (name (str "test2")), Fine);
   (ECreateSchema 3 (name (str "maho")) (name (str "test3")), Fine);
   (EListSchemas 3 (name (str "maho")), Names [name (str "public"); name (str "test"); name (str "test2"); name (str "test3")]);
   (ECommit 3, Fine);
   (EBegin, Fine);
   (ECreateSchema 4 (name (str "maho")) (name (str "test4")), Fine);
   (EListSchemas 4 (name (str "maho")), Names [name (str "public"); name (str "test"); name (str "test2"); name (str "test3"); name (str "test4")]);
   (ERollback 4, Fine);
   (EBegin, Fine);
   (EListSchemas 5 (name (str "maho")), Names [name (str "public"); name (str "test"); name (str "test2"); name (str "test3")]);
   (ERollback 5, Fine);
   (EBegin, Fine);
   (EListSchemas 6 (name (str "not_a_db")), Fails);
   (ERollback 6, Fine);
   (EBegin, Fine);
   (EListSchemas 7 (name (str "maho")), Names [name (str "public"); name (str "test"); name (str "test2"); name (str "test3")]);
   (EDropSchema 7 (name (str "maho")) (name (str "test2")) false, Fine);
   (EListSchemas 7 (name (str "maho")), Names [name (str "public"); name (str "test"); name (str "test3")]);
   (ECommit 7, Fine);
   (EBegin, Fine);
   (EListSchemas 8 (name (str "maho")), Names [name (str "public"); name (str "test"); name (str "test3")]);
   (EDropSchema 8 (name (str "maho")) (name (str "test")) false, Fine);
   (EListSchemas 8 (name (str "maho")), Names [name (str "public"); name (str "test3")]);
   (ERollback 8, Fine);
   (EBegin, Fine);
   (EListSchemas 9 (name (str "maho")), Names [name (str "public"); name (str "test"); name (str "test3")]);
   (EDropSchema 9 (name (str "maho")) (name (str "test2")) false, Fails);
   (ERollback 9, Fine);
   (EBegin, Fine);
   (EListSchemas 10 (name (str "maho")), Names [name (str "public"); name (str "test"); name (str "test3")]);
   (EDropSchema 10 (name (str "maho")) (name (str "test2")) true, Fine);
   (EListSchemas 10 (name (str "maho")), Names [name (str "public"); name (str "test"); name (str "test3")]);
   (ERollback 10, Fine)]) =
  true.
Proof. vm_compute. reflexivity. Qed.

(** [TestTable], engine/engine_test.go:333-477. *)
Example TestTable :
  forallb (fun b => b) (engine_test (snd new_engine)
  [(EBegin, Fine);
   (create 0 {| tn_database := (name (str "maho")); tn_schema := (name (str "public")); tn_table := (name (str "test")) |} (columns (runes "c1 int, c2 char(64)")), Fine);
   (ECommit 0, Fine);
   (EBegin, Fine);
   (create 1 {| tn_database := (name (str "maho")); tn_schema := (name (str "public")); tn_table := (name (str "test")) |} (columns (runes "c1 bool, c2 int, c3 char(16), c4 binary(128)")), Fails);
   (ERollback 1, Fine);
   (EBegin, Fine);
   (create 2 {| tn_database := (name (str "maho")); tn_schema := (name (str "no_schema")); tn_table := (name (str "test")) |} (columns (runes "c1 bool, c2 int, c3 char(16), c4 binary(128)")), Fails);
   (ERollback 2, Fine);
   (EBegin, Fine);
   (create 3 {| tn_database := (name (str "no_schema")); tn_schema := (name (str "public")); tn_table := (name (str "test")) |} (columns (runes "c1 bool, c2 int, c3 char(16), c4 binary(128)")), Fails);
   (ERollback 3, Fine);
   (EBegin, Fine);
   (create 4 {| tn_database := (name (str "maho")); tn_schema := (name (str "public")); tn_table := (name (str "test2")) |} (columns (runes "c1 bool, c2 int, c3 char(16), c4 binary(128)")), Fine);
   (ERollback 4, Fine);
   (EBegin, Fine);
   (create 5 {| tn_database := (name (str "maho")); tn_schema := (name (str "public")); tn_table := (name (str "test2")) |} (columns (runes "c1 bool, c2 int, c3 char(16), c4 binary(128)")), Fine);
   (ECommit 5, Fine);
   (EBegin, Fine);
   (EOpenTable 6 {| tn_database := (name (str "maho")); tn_schema := (name (str "public")); tn_table := (name (str "test99")) |}, Fails);
   (ERollback 6, Fine);
   (EBegin, Fine);
   (EOpenTable 7 {| tn_database := (name (str "maho")); tn_schema := (name (str "not_schema")); tn_table := (name (str "test")) |}, Fails);
   (ERollback 7, Fine);
   (EBegin, Fine);
   (EOpenTable 8 {| tn_database := (name (str "maho")); tn_schema := (name (str "public")); tn_table := (name (str "test")) |}, table_wanted 512 (columns (runes "c1 int, c2 char(64)")));
   (EOpenTable 8 {| tn_database := (name (str "maho")); tn_schema := (name (str "public")); tn_table := (name (str "test2")) |}, table_wanted 513 (columns (runes "c1 bool, c2 int, c3 char(16), c4 binary(128)")));
   (ECommit 8, Fine)]) =
  true.
Proof. vm_compute. reflexivity. Qed.

Fixpoint next_ids (s : eworld) (l : list (ecall + nat)) : list eout :=
  match l with
  | [] => []
  | inl c :: l' => let '(o, s) := estep infos s c in (match o with EDone => [] | o => [o] end) ++ next_ids s l'
  | inr k :: l' => let '(o, s) := inTx s k (nextTableId infos) (fun i => ENames [i]) in o :: next_ids s l'
  end.

(** [TestNextTableId], engine/tableid_test.go:20-97. *)
Example TestNextTableId :
  next_ids (snd new_engine)
  [inl EBegin;
   inr 0%nat;
   inl (ECommit 0);
   inl EBegin;
   inr 1%nat;
   inr 1%nat;
   inr 1%nat;
   inr 1%nat;
   inl (ERollback 1);
   inl EBegin;
   inr 2%nat;
   inr 2%nat;
   inr 2%nat;
   inl (ECommit 2);
   inl EBegin;
   inr 3%nat;
   inl (ERollback 3)] =
  [ENames [512]; ENames [513]; ENames [514]; ENames [515]; ENames [516]; ENames [513]; ENames [514]; ENames [515]; ENames [516]].
Proof. vm_compute. reflexivity. Qed.
