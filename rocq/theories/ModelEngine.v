(** engine/engine.go and engine/init.go: the catalogue. *)

From Verif Require Export ModelTyped.

(** [TableType], engine/engine.go:49-56, without [ColumnDefaults] and [Indexes],
    which are always nil (engine/engine.go:395-396). *)
Record etabletype : Set := {
  ett_version : Z;
  ett_cols : list Z;
  ett_types : list coltype;
  ett_key : list Z
}.

(** What encoding/gob encodes of a [TableType], engine/engine.go:335: every
    identifier as what its [GobEncode] gives. *)
Record ewiretype : Set := {
  ewt_version : Z;
  ewt_cols : list bytes;
  ewt_types : list coltype;
  ewt_key : list Z
}.

(** encoding/gob is not modelled, engine/engine.go:335, 345; encoding does not
    fail. *)
Class EGobLib : Type := {
  x_egob_encode : ewiretype -> bytes;
  x_egob_decode : bytes -> option ewiretype
}.

(** [GobEncode] of the identifiers, types/identifier.go:345-350 called from
    engine/engine.go:335. *)
Fixpoint pEncodeIds (l : list Z) : prog (list bytes) :=
  match l with
  | [] => pret []
  | id :: l' =>
      do! s := pName id in
      do! r := pEncodeIds l' in
      pret (((if IsReserved id then x01 else x00) :: s) :: r)
  end.

(** [GobDecode] of the identifiers, types/identifier.go:333-343 called from
    engine/engine.go:345. *)
Fixpoint pDecodeIds (l : list bytes) : prog (list Z) :=
  match l with
  | [] => pret []
  | [] :: _ => pfail ErrGob
  | (b :: s) :: l' =>
      if 1 <? bz b then pfail ErrGob
      else
        do! id := pID s (bz b =? 0) in
        do! r := pDecodeIds l' in
        pret (id :: r)
  end.

(** [sequencesTableId] and so on, engine/engine.go:81-89. *)
Definition sequencesTableId : Z := EngineTableId.
Definition databasesTableId : Z := EngineTableId + 1.
Definition schemasTableId : Z := EngineTableId + 2.
Definition tablesTableId : Z := EngineTableId + 3.
Definition maxReservedTableId : Z := 511.
Definition nextTableIdSequence : bytes := str "next_table_id".

(** The constants [types.SYSTEM], [INFO], [SEQUENCES], [DATABASES], [SCHEMAS],
    [TABLES], [MAHO] and [PUBLIC], types/identifier.go:16-63. *)
Definition ID_DATABASES : Z := 16.
Definition ID_INFO : Z := 22.
Definition ID_MAHO : Z := 28.
Definition ID_PUBLIC : Z := 33.
Definition ID_SCHEMAS : Z := 37.
Definition ID_SEQUENCES : Z := 38.
Definition ID_SYSTEM : Z := 41.
Definition ID_TABLES : Z := 42.

(** A field name written in ASCII, engine/engine.go:108-128. *)
Definition fieldName (s : string) : list Z := map bz (str s).

(** [sequencesRow], [databasesRow], [schemasRow] and [tablesRow],
    engine/engine.go:108-128. *)
Definition textKey (name : string) : field :=
  {| fd_name := fieldName name; fd_tag := str "size=128,primary"; fd_type := FTBase KString |}.
Definition sequencesType : stype := {|
  st_name := str "sequencesRow";
  st_fields := [textKey "Sequence"; {| fd_name := fieldName "Current"; fd_tag := []; fd_type := FTBase KInt64 |}]
|}.
Definition databasesType : stype := {| st_name := str "databasesRow"; st_fields := [textKey "Database"] |}.
Definition schemasType : stype := {|
  st_name := str "schemasRow"; st_fields := [textKey "Database"; textKey "Schema"] |}.
Definition tablesType : stype := {|
  st_name := str "tablesRow";
  st_fields := [textKey "Database"; textKey "Schema"; textKey "Table";
    {| fd_name := fieldName "TableId"; fd_tag := []; fd_type := FTBase KInt64 |};
    {| fd_name := fieldName "Type"; fd_tag := str "size=8192,notnull"; fd_type := FTBase KBytes |}]
|}.

(** Composite literals of these types, engine/engine.go:152, 161, 191, 234, 244,
    251, 278, 289, 309, 355, 380, 407; fields left out are zero. *)
Definition sequencesRow (s : bytes) (cur : Z) : gostruct :=
  {| gs_type := str "sequencesRow"; gs_fields := [FString s; FInt KInt64 cur] |}.
Definition databasesRow (d : bytes) : gostruct :=
  {| gs_type := str "databasesRow"; gs_fields := [FString d] |}.
Definition schemasRow (d s : bytes) : gostruct :=
  {| gs_type := str "schemasRow"; gs_fields := [FString d; FString s] |}.
Definition tablesRow (d s t : bytes) (id : Z) (ty : option bytes) : gostruct :=
  {| gs_type := str "tablesRow"; gs_fields := [FString d; FString s; FString t; FInt KInt64 id; FBytes ty] |}.

(** Reading a field of a struct, engine/engine.go:194, 295, 299, 321, 329, 362. *)
Definition stringField (g : gostruct) (i : nat) : bytes :=
  match nth_error (gs_fields g) i with Some (FString s) => s | _ => [] end.
Definition intField (g : gostruct) (i : nat) : Z :=
  match nth_error (gs_fields g) i with Some (FInt _ z) => z | _ => 0 end.
Definition bytesField (g : gostruct) (i : nat) : bytes :=
  match nth_error (gs_fields g) i with Some (FBytes (Some b)) => b | _ => [] end.

(** The variables [sequencesTypedInfo] and so on, engine/engine.go:97-106. *)
Record einfos : Set := {
  i_sequences : typedinfo;
  i_databases : typedinfo;
  i_schemas : typedinfo;
  i_tables : typedinfo
}.

(** Their initialisation, engine/engine.go:97-106. *)
Definition systemTable (id : Z) : tablename :=
  {| tn_database := ID_SYSTEM; tn_schema := ID_INFO; tn_table := id |}.
Definition makeInfos {U : RuneLib} : prog einfos :=
  do! a := MakeTypedInfo sequencesTableId (systemTable ID_SEQUENCES) sequencesType in
  do! b := MakeTypedInfo databasesTableId (systemTable ID_DATABASES) databasesType in
  do! c := MakeTypedInfo schemasTableId (systemTable ID_SCHEMAS) schemasType in
  do! d := MakeTypedInfo tablesTableId (systemTable ID_TABLES) tablesType in
  pret {| i_sequences := a; i_databases := b; i_schemas := c; i_tables := d |}.

(** [TypedInfo.TableType], engine/typedinfo.go:191-198. *)
Definition infoType (ti : typedinfo) : etabletype :=
  {| ett_version := 1; ett_cols := ti_cols ti; ett_types := ti_types ti; ett_key := ti_primary ti |}.

(** An error that was returned besides a value.  As in [return nil, err],
    engine/engine.go:184-331. *)
Definition orFail {A} (q : A * option error) : prog A :=
  match snd q with Some e => pfail e | None => pret (fst q) end.

(** [tx.Rollback()] with the error ignored, engine/engine.go:137, 198,
    engine/init.go:96. *)
Definition rollbackWith {A} (r : res A) : prog A :=
  pthen (call CRollback) (fun c => match c with Panic => ppanic | _ => PRet r end).

(** What [withTransaction], engine/engine.go:130-142, [ListDatabases],
    engine/engine.go:184-206, and [Init], engine/init.go:91-100, do after
    [Begin]; a panic leaves the transaction as it is. *)
Definition completing {A} (p : prog A) : prog A :=
  pthen p (fun r =>
    match r with
    | Ok a => do! _ := call CCommit in pret a
    | Err e => rollbackWith (Err e)
    | Panic => ppanic
    end).

Section Engine.
  Context {F : Float32Lib} {E : EGobLib}.
  Context (I : einfos).

  (** [TableType.Encode], engine/engine.go:333-341. *)
  Definition Encode (tt : etabletype) : prog bytes :=
    do! ids := pEncodeIds (ett_cols tt) in
    pret (x_egob_encode {| ewt_version := ett_version tt; ewt_cols := ids; ewt_types := ett_types tt; ewt_key := ett_key tt |}).

  (** [DecodeTableType], engine/engine.go:343-351. *)
  Definition DecodeTableType (buf : bytes) : prog etabletype :=
    match x_egob_decode buf with
    | None => pfail ErrGob
    | Some wt =>
        do! ids := pDecodeIds (ewt_cols wt) in
        pret {| ett_version := ewt_version wt; ett_cols := ids; ett_types := ewt_types wt; ett_key := ewt_key wt |}
    end.

  (** [CreateDatabase] after the options, engine/engine.go:150-155. *)
  Definition createDatabase (dn : Z) : prog unit :=
    do! d := pName dn in
    TypedTableInsert (i_databases I) [Some (databasesRow d)].

  (** [DropDatabase], engine/engine.go:160-181. *)
  Definition dropDatabase (dn : Z) (ifExists : bool) : prog unit :=
    do! d := pName dn in
    do! q := TypedTableDelete (i_databases I) (Some (databasesRow d)) (Some (databasesRow d))
               (fun (_ : bool) _ => pret (true, inl true)) false in
    do! deleted := orFail q in
    if deleted then pret tt else if ifExists then pret tt else pfail ErrNoDatabase.

  (** [ListDatabases], engine/engine.go:188-196. *)
  Definition listDatabases : prog (list Z) :=
    do! q := TypedTableSelect (i_databases I) None None
      (fun l row =>
        do! dr := PRet (RowToStruct (i_databases I) row (databasesRow [])) in
        do! id := pID (stringField dr 0) true in
        pret (l ++ [id], None)) [] in
    orFail q.

  (** [if err == io.EOF { return notFound } else if err != nil { return err }]
      after [TypedTableLookup], engine/engine.go:237-241, 281-285, 315-319,
      384-388. *)
  Definition found (notFound : error) (q : gostruct * option error) : prog gostruct :=
    match snd q with
    | None => pret (fst q)
    | Some EOF => pfail notFound
    | Some e => pfail e
    end.

  (** [CreateSchema], engine/engine.go:232-248. *)
  Definition createSchema (dn sn : Z) : prog unit :=
    do! d := pName dn in
    do! q := TypedTableLookup (i_databases I) (databasesRow d) in
    do! _ := found ErrNoDatabase q in
    do! d := pName dn in
    do! s := pName sn in
    TypedTableInsert (i_schemas I) [Some (schemasRow d s)].

  (** [DropSchema], engine/engine.go:250-272. *)
  Definition dropSchema (dn sn : Z) (ifExists : bool) : prog unit :=
    do! d := pName dn in
    do! s := pName sn in
    do! q := TypedTableDelete (i_schemas I) (Some (schemasRow d s)) (Some (schemasRow d s))
               (fun (_ : bool) _ => pret (true, inl true)) false in
    do! deleted := orFail q in
    if deleted then pret tt else if ifExists then pret tt else pfail ErrNoSchema.

  (** [ListSchemas], engine/engine.go:274-306. *)
  Definition listSchemas (dn : Z) : prog (list Z) :=
    do! d := pName dn in
    do! q := TypedTableLookup (i_databases I) (databasesRow d) in
    do! _ := found ErrNoDatabase q in
    do! d := pName dn in
    do! q := TypedTableSelect (i_schemas I) (Some (schemasRow d [])) None
      (fun l row =>
        do! sr := PRet (RowToStruct (i_schemas I) row (schemasRow [] [])) in
        do! d := pName dn in
        if bytes_eqb (stringField sr 0) d then
          do! id := pID (stringField sr 1) true in
          pret (l ++ [id], None)
        else pret (l, Some EOF)) [] in
    orFail q.

  (** [OpenTable], engine/engine.go:308-331: the table id and the type of the
      table; [storage.TableId] has 32 bits. *)
  Definition openTable (tn : tablename) : prog (Z * etabletype) :=
    do! d := pName (tn_database tn) in
    do! s := pName (tn_schema tn) in
    do! t := pName (tn_table tn) in
    do! q := TypedTableLookup (i_tables I) (tablesRow d s t 0 None) in
    do! tr := found ErrNoTable q in
    do! tt := DecodeTableType (bytesField tr 4) in
    pret (u32 (intField tr 3), tt).

  (** [nextTableId], engine/engine.go:353-374. *)
  Definition nextTableId : prog Z :=
    do! q := TypedTableUpdate (i_sequences I) (Some (sequencesRow nextTableIdSequence 0))
        (Some (sequencesRow nextTableIdSequence 0))
      (fun _ row =>
        do! sr := PRet (RowToStruct (i_sequences I) row (sequencesRow [] 0)) in
        let tid := intField sr 1 in
        pret (tid, inl (Some [(fieldName "Current", FInt KInt64 (i64 (tid + 1)))]))) 0 in
    orFail q.

  (** [CreateTable], engine/engine.go:376-414. *)
  Definition createTable (tn : tablename) (colNames : list Z) (colTypes : list coltype) (primary : list Z) : prog unit :=
    do! d := pName (tn_database tn) in
    do! s := pName (tn_schema tn) in
    do! q := TypedTableLookup (i_schemas I) (schemasRow d s) in
    do! _ := found ErrNoSchema q in
    do! buf := Encode {| ett_version := 1; ett_cols := colNames; ett_types := colTypes; ett_key := primary |} in
    do! tid := nextTableId in
    do! d := pName (tn_database tn) in
    do! s := pName (tn_schema tn) in
    do! t := pName (tn_table tn) in
    TypedTableInsert (i_tables I) [Some (tablesRow d s t tid (Some buf))].

  (** One round of the first loop of [initStore], engine/init.go:55-69. *)
  Definition initTable (ti : typedinfo) (l : list gostruct) : prog unit :=
    CreateTypedTable ti ;;;
    match l with
    | [] => pret tt
    | _ => TypedTableInsert ti (map Some l)
    end.

  (** One round of the second loop of [initStore], engine/init.go:73-85. *)
  Definition initRow (ti : typedinfo) : prog gostruct :=
    do! buf := Encode (infoType ti) in
    do! d := pName (tn_database (ti_tn ti)) in
    do! s := pName (tn_schema (ti_tn ti)) in
    do! t := pName (tn_table (ti_tn ti)) in
    pret (tablesRow d s t (ti_tid ti) (Some buf)).

  (** [initStore], engine/init.go:54-89, with [initTables], engine/init.go:11-51;
      the names of constant identifiers are written out. *)
  Definition initStore : prog unit :=
    initTable (i_sequences I) [sequencesRow nextTableIdSequence (maxReservedTableId + 1)] ;;;
    initTable (i_databases I) [databasesRow (str "system"); databasesRow (str "maho")] ;;;
    initTable (i_schemas I) [schemasRow (str "system") (str "info"); schemasRow (str "maho") (str "public")] ;;;
    initTable (i_tables I) [] ;;;
    do! a := initRow (i_sequences I) in
    do! b := initRow (i_databases I) in
    do! c := initRow (i_schemas I) in
    do! d := initRow (i_tables I) in
    TypedTableInsert (i_tables I) (map Some [a; b; c; d]).
End Engine.

(** The state: that of the store; the next unused name for a storage
    transaction; and the objects of type [transaction], engine/engine.go:71-73,
    in the order they were made, each with its storage transaction, or nil. *)
Record eworld : Set := { e_w : world; e_next : nat; e_txs : list (option nat) }.

(** Calls of the methods of package engine, engine/engine.go:16-40, and of
    [types.ID] by others.  A transaction is given by its position. *)
Inductive ecall : Set :=
  | ECreateDatabase (dn : Z) (options : list bytes)
  | EDropDatabase (dn : Z) (ifExists : bool)
  | EListDatabases
  | EBegin
  | ECommit (k : nat)
  | ERollback (k : nat)
  | ECreateSchema (k : nat) (dn sn : Z)
  | EDropSchema (k : nat) (dn sn : Z) (ifExists : bool)
  | EListSchemas (k : nat) (dn : Z)
  | EOpenTable (k : nat) (tn : tablename)
  | ECreateTable (k : nat) (tn : tablename) (colNames : list Z) (colTypes : list coltype) (primary : list Z)
  | EDropTable (k : nat) (tn : tablename)
  | EListTables (k : nat) (dn sn : Z)
  | ECreateIndex (k : nat) (tn : tablename) (ix : Z) (key : list Z)
  | EDropIndex (k : nat) (tn : tablename) (ix : Z)
  | EIntern (s : bytes) (quoted : bool).

(** What the caller sees.  The results of the methods of
    engine/engine.go:144-440. *)
Inductive eout : Set :=
  | EDone
  | EErr (e : error)
  | EPanic
  | EBlocked                  (* waits for the lock; nothing has happened *)
  | ENoObject                 (* there is no such transaction: not a call *)
  | ENames (l : list Z)
  | ETable (tid : Z) (tt : etabletype).

(** The result of a function.  The results of the methods of
    engine/engine.go:144-440. *)
Definition eresult {A} (f : A -> eout) (r : res A) : eout :=
  match r with Ok a => f a | Err e => EErr e | Panic => EPanic end.

Section EngineStep.
  Context {F : Float32Lib} {X : FloatLib} {L : CaseLib} {G : GobLib} {E : EGobLib}.

  (** [eng.store.Begin()] and a function with the new transaction,
      engine/engine.go:133, 185, engine/init.go:93. *)
  Definition inNew {A} (s : eworld) (p : prog A) (f : A -> eout) : eout * eworld :=
    match step (e_w s) (Begin (e_next s)) with
    | (ODone, w1) =>
        let '(r, w2, _) := exec w1 (e_next s) p in
        (eresult f r, {| e_w := w2; e_next := S (e_next s); e_txs := e_txs s |})
    | _ => (EBlocked, s)
    end.

  (** A function with [tx.tx]; the method call on nil panics. *)
  Definition inTx {A} (s : eworld) (k : nat) (p : prog A) (f : A -> eout) : eout * eworld :=
    match nth_error (e_txs s) k with
    | None => (ENoObject, s)
    | Some None => (EPanic, s)
    | Some (Some x) =>
        let '(r, w2, _) := exec (e_w s) x p in
        (eresult f r, {| e_w := w2; e_next := e_next s; e_txs := e_txs s |})
    end.

  (** [Commit] and [Rollback], engine/engine.go:214-230; [ErrTxCompleted] stands
      for [errTransactionComplete] too. *)
  Definition completeTx (s : eworld) (k : nat) (c : txcall) : eout * eworld :=
    match nth_error (e_txs s) k with
    | None => (ENoObject, s)
    | Some None => (EErr ErrTxCompleted, s)
    | Some (Some x) =>
        match step (e_w s) (Call x c) with
        | (ODone, w2) => (EDone, {| e_w := w2; e_next := e_next s; e_txs := set_nth k None (e_txs s) |})
        | (OErr e, w2) => (EErr e, {| e_w := w2; e_next := e_next s; e_txs := set_nth k None (e_txs s) |})
        | (_, w2) => (EPanic, {| e_w := w2; e_next := e_next s; e_txs := e_txs s |})
        end
    end.

  (** A method of a transaction that does nothing, engine/engine.go:416-440. *)
  Definition stub (s : eworld) (k : nat) (out : eout) : eout * eworld :=
    match nth_error (e_txs s) k with None => (ENoObject, s) | Some _ => (out, s) end.

  (** One call, engine/engine.go:144-440.  A call is one step: another caller
      waits for the lock, or uses the same transaction, which is not meant to be
      used by more than one at a time. *)
  Definition estep (I : einfos) (s : eworld) (c : ecall) : eout * eworld :=
    let done := fun _ : unit => EDone in
    match c with
    | ECreateDatabase dn opts =>
        match opts with
        | _ :: _ => (EErr ErrOption, s)
        | [] => inNew s (completing (createDatabase I dn)) done
        end
    | EDropDatabase dn ifx => inNew s (completing (dropDatabase I dn ifx)) done
    | EListDatabases => inNew s (completing (listDatabases I)) ENames
    | EBegin =>
        match step (e_w s) (Begin (e_next s)) with
        | (ODone, w1) => (EDone, {| e_w := w1; e_next := S (e_next s); e_txs := e_txs s ++ [Some (e_next s)] |})
        | _ => (EBlocked, s)
        end
    | ECommit k => completeTx s k CCommit
    | ERollback k => completeTx s k CRollback
    | ECreateSchema k dn sn => inTx s k (createSchema I dn sn) done
    | EDropSchema k dn sn ifx => inTx s k (dropSchema I dn sn ifx) done
    | EListSchemas k dn => inTx s k (listSchemas I dn) ENames
    | EOpenTable k tn => inTx s k (openTable I tn) (fun r => ETable (fst r) (snd r))
    | ECreateTable k tn cn ct p => inTx s k (createTable I tn cn ct p) done
    | EDropTable k _ => stub s k EDone
    | EListTables k _ _ => stub s k (ENames [])
    | ECreateIndex k _ _ _ => stub s k EDone
    | EDropIndex k _ _ => stub s k EDone
    | EIntern str q =>
        (EDone, {| e_w := snd (step (e_w s) (Intern str q)); e_next := e_next s; e_txs := e_txs s |})
    end.

  (** Calls one after the other. *)
  Fixpoint erun (I : einfos) (s : eworld) (cs : list ecall) : list eout * eworld :=
    match cs with
    | [] => ([], s)
    | c :: cs' =>
        let '(out, s1) := estep I s c in
        let '(outs, s2) := erun I s1 cs' in
        (out :: outs, s2)
    end.

  (** [Init], engine/init.go:91-100. *)
  Definition Init (I : einfos) (s : eworld) : eout * eworld :=
    inNew s (completing (initStore I)) (fun _ => EDone).
End EngineStep.
