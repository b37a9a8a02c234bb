(** Properties C33, C34 and C35: the catalogue, engine/engine.go and
    engine/init.go. *)

From Verif Require Import ModelEngine SpecEngine LemmasEngineInit LemmasEngine LemmasMachine LemmasDemo LemmasDemoTyped LemmasDemoEngine
  LemmasValue LemmasGob LemmasIdent.

(** C33.  After initialisation the catalogue is that of [first_machine].  Every
    call returns what the catalogue as sets and maps of names says, and changes
    the stored catalogue as it says. *)
Theorem C33_catalogue_start : forall X G L F E, libraries X G L F E ->
  forall I s, booted I s -> represents s first_machine.
Proof. exact catalogue_start_all. Qed.
Print Assumptions C33_catalogue_start.

Theorem C33_catalogue_call : forall X G L F E, libraries X G L F E ->
  forall I n s m c out s', ereach I n s -> represents s m -> known_call (e_idt s) c -> estep I s c = (out, s') ->
  agrees (e_idt s') out (fst (mstep m (named (e_idt s) c))) /\ represents s' (snd (mstep m (named (e_idt s) c))).
Proof. exact catalogue_call_all. Qed.
Print Assumptions C33_catalogue_call.

(** So every state is that of a catalogue that was reached by the same calls. *)
Theorem C33_catalogue_reached : forall X G L F E, libraries X G L F E ->
  forall I n s, ereach I n s -> exists m, represents s m /\ mreach n m.
Proof. exact catalogue_reached_all. Qed.
Print Assumptions C33_catalogue_reached.

(** The identifiers of the catalogue are those with these names. *)
Theorem C33_constants :
  map (idString idt_init) [ID_SYSTEM; ID_INFO; ID_SEQUENCES; ID_DATABASES; ID_SCHEMAS; ID_TABLES; ID_MAHO; ID_PUBLIC] =
  map str ["system"; "info"; "sequences"; "databases"; "schemas"; "tables"; "maho"; "public"]%string.
Proof. exact constants_named. Qed.
Print Assumptions C33_constants.

(** No name is stored twice. *)
Theorem C33_names_unique : forall X G L F E, libraries X G L F E ->
  forall I n s t, ereach I n s -> t = committed (e_w s) \/ (exists x, view (e_w s) x = Some t) ->
  NoDup (rows_in t 17) /\ NoDup (rows_in t 18) /\ NoDup (map (firstn 3) (rows_in t 19)).
Proof. exact names_unique_all. Qed.
Print Assumptions C33_names_unique.

(** A call that fails changes no listing. *)
Theorem C33_error_changes_nothing : forall X G L F E, libraries X G L F E ->
  forall I n s c e s', ereach I n s -> known_call (e_idt s) c -> estep I s c = (EErr e, s') ->
  (forall tid, 17 <= tid <= 19 -> Permutation (rows_in (committed (e_w s')) tid) (rows_in (committed (e_w s)) tid)) /\
  (forall x t, view (e_w s') x = Some t -> exists y t0, view (e_w s) y = Some t0 /\
     forall tid, 17 <= tid <= 19 -> Permutation (rows_in t tid) (rows_in t0 tid)).
Proof. exact error_changes_nothing_all. Qed.
Print Assumptions C33_error_changes_nothing.

(** OpenTable gives what was given to CreateTable, as long as the transaction is
    not completed; and in every later transaction once it was committed.  The
    number is always the same. *)
Theorem C33_created_opens : forall X G L F E, libraries X G L F E ->
  forall I n s k tn cn ct p s1, ereach I n s -> known_call (e_idt s) (ECreateTable k tn cn ct p) ->
  Forall (ordinary (e_idt s)) cn -> estep I s (ECreateTable k tn cn ct p) = (EDone, s1) ->
  exists id, let tt := {| ett_version := 1; ett_cols := cn; ett_types := ct; ett_key := p |} in
    forall s2, later I (fun c => c <> ECommit k /\ c <> ERollback k) s1 s2 ->
      fst (estep I s2 (EOpenTable k tn)) = ETable id tt /\
      forall s3, estep I s2 (ECommit k) = (EDone, s3) -> forall s4, later I (fun _ => True) s3 s4 ->
      forall j, let out := fst (estep I s4 (EOpenTable j tn)) in
        out = ETable id tt \/
        out = ENoObject /\ nth_error (e_txs s4) j = None \/ out = EPanic /\ nth_error (e_txs s4) j = Some None.
Proof. exact created_opens_all. Qed.
Print Assumptions C33_created_opens.

(** Initialisation succeeds if and only if the definitions of its own tables fit
    in the column for them. *)
Theorem C33_init_succeeds : forall X G L F E, libraries X G L F E ->
  forall (U : RuneLib) t ths, RuneLib_ascii U -> idreach (t, ths) ->
  exists I w lg, exec (newStore t) 0 makeInfos = (Ok I, w, lg) /\
    forall ids, Forall is_intern ids ->
      (fst (Init I {| e_w := snd (run w ids); e_next := 0; e_txs := [] |}) = EDone <->
       Forall (fun e => def_fits (snd (snd e)) = true) (c_tables first_catalogue)).
Proof. exact init_succeeds_all. Qed.
Print Assumptions C33_init_succeeds.

(** The name "sales" is 54, "north" 55, "orders" 56, "id" 57, "price" 58,
    "notes" 59, "maho" 28, "public" 33. *)
Definition orders : tablename := {| tn_database := 54; tn_schema := 55; tn_table := 56 |}.
Definition demo_calls : list ecall := [
  ECreateDatabase 54 []; EListDatabases; EBegin; ECreateSchema 0 54 55; ECreateSchema 0 56 55; ECreateSchema 0 54 55;
  EListSchemas 0 54; ECreateTable 0 orders [57; 58] demo_types [1]; ECreateTable 0 orders [57] demo_types [1];
  EOpenTable 0 orders; ECommit 0; EDropDatabase 56 false; EDropDatabase 56 true; EBegin;
  EOpenTable 1 orders; EOpenTable 0 orders; EDropSchema 1 54 59 false; ERollback 1; ERollback 1].
Definition orders_type : etabletype := {| ett_version := 1; ett_cols := [57; 58]; ett_types := demo_types; ett_key := [1] |}.

Example C33_case :
  libraries demo_X demo_G demo_L demo_F demo_E /\ booted demo_I demo_s0 /\
  fst (erun demo_I demo_s0 demo_calls) =
    [EDone; ENames [28; 54; 41]; EDone; EDone; EErr ErrNoDatabase; EErr ErrDuplicateKey;
     ENames [55]; EDone; EErr ErrDuplicateKey;
     ETable 512 orders_type; EDone; EErr ErrNoDatabase; EDone; EDone;
     ETable 512 orders_type; EPanic; EErr ErrNoSchema; EDone; EErr ErrTxCompleted] /\
  Forall (known_call (e_idt demo_s0)) demo_calls /\ Forall (ordinary (e_idt demo_s0)) [57; 58] /\
  Forall (fun e => def_fits (snd (snd e)) = true) (c_tables first_catalogue).
Proof.
  split; [exact demo_libraries|].
  split; [exact demo_booted|]. split; [vm_compute; reflexivity|].
  assert (forall i l, find (fun p => fst p =? i) l = Some (i, snd (List.hd (0, []) (filter (fun p => fst p =? i) l))) ->
    exists n : bytes, In (i, n) l) as K by (intros i l H; apply find_some in H as [H _]; eauto).
  assert (known_id (e_idt demo_s0) 54 /\ known_id (e_idt demo_s0) 55 /\ known_id (e_idt demo_s0) 56 /\ known_id (e_idt demo_s0) 57 /\
    known_id (e_idt demo_s0) 58 /\ known_id (e_idt demo_s0) 59) as (H1 & H2 & H3 & H4 & H5 & H6).
  { unfold known_id. repeat split; apply K; vm_compute; reflexivity. }
  split; [repeat constructor; assumption|]. split.
  - repeat constructor; try assumption; try (vm_compute; congruence); vm_compute; intuition discriminate.
  - repeat constructor; vm_compute; reflexivity.
Qed.

(** C34.  The numbers of the tables are distinct and smaller than the next one,
    and all but those of the system tables are larger than 511, as long as
    CreateTable was called fewer than 2^63 - 512 times. *)
Theorem C34_table_ids : forall X G L F E, libraries X G L F E ->
  forall I n s, ereach I n s -> 512 + Z.of_nat n < 2 ^ 63 ->
  numbered n (committed (e_w s)) /\ forall x t, view (e_w s) x = Some t -> numbered n t.
Proof. exact table_ids_all. Qed.
Print Assumptions C34_table_ids.

Example C34_case :
  let s := snd (erun demo_I demo_s0 (demo_calls ++ [EBegin; ECreateTable 2 {| tn_database := 54; tn_schema := 55; tn_table := 59 |} [57] [] []])) in
  map (fun r => nth 3 r VNull) (rows_in (committed (e_w s)) 19) = [VInt 512; VInt 17; VInt 18; VInt 16; VInt 19] /\
  exists t, view (e_w s) 7 = Some t /\ map (fun r => nth 3 r VNull) (rows_in t 19) = [VInt 514; VInt 512; VInt 17; VInt 18; VInt 16; VInt 19].
Proof. split; [vm_compute; reflexivity|]. eexists. split; vm_compute; reflexivity. Qed.

(** But storage identifies a table by the lower 32 bits of its number: after 2^32 + 1
    calls of CreateTable, two tables have the same. *)
Theorem C34_storage_ids_refuted : forall X G L F E, libraries X G L F E ->
  forall I s tn1 tn2, booted I s ->
  let t := e_idt s in
  let c1 := ECreateTable 0 tn1 [] [] [] in let c2 := ECreateTable 0 tn2 [] [] [] in
  known_call t c1 -> known_call t c2 -> tn_database tn1 = tn_database tn2 -> tn_schema tn1 = tn_schema tn2 ->
  idString t (tn_database tn1) = str "maho" -> idString t (tn_schema tn1) = str "public" ->
  idString t (tn_table tn1) <> idString t (tn_table tn2) ->
  fits (idString t (tn_table tn1)) = true -> fits (idString t (tn_table tn2)) = true ->
  def_fits {| td_cols := []; td_types := []; td_key := [] |} = true ->
  exists n s' id tt1 tt2, ereach I n s' /\ Z.of_nat n = 2 ^ 32 + 1 /\
    fst (estep I s' (EOpenTable 0 tn1)) = ETable id tt1 /\ fst (estep I s' (EOpenTable 0 tn2)) = ETable id tt2.
Proof. exact storage_ids_refuted_all. Qed.
Print Assumptions C34_storage_ids_refuted.

Example C34_storage_ids_case :
  let t := e_idt demo_s0 in
  idString t 28 = str "maho" /\ idString t 33 = str "public" /\ idString t 56 <> idString t 59 /\
  fits (idString t 56) = true /\ fits (idString t 59) = true /\ def_fits {| td_cols := []; td_types := []; td_key := [] |} = true.
Proof. repeat split; try (vm_compute; reflexivity). vm_compute. discriminate. Qed.

(** C35.  Dropping a database removes it, but none of its schemas and tables. *)
Theorem C35_drop_database_refuted : forall X G L F E, libraries X G L F E ->
  forall I n s d b s', ereach I n s -> known_id (e_idt s) d -> estep I s (EDropDatabase d b) = (EDone, s') ->
  ~ In [VString (idString (e_idt s) d)] (rows_in (committed (e_w s')) 17) /\
  Permutation (rows_in (committed (e_w s')) 18) (rows_in (committed (e_w s)) 18) /\
  Permutation (rows_in (committed (e_w s')) 19) (rows_in (committed (e_w s)) 19).
Proof. exact drop_database_refuted_all. Qed.
Print Assumptions C35_drop_database_refuted.

(** Dropping a schema removes it, but none of its tables. *)
Theorem C35_drop_schema_refuted : forall X G L F E, libraries X G L F E ->
  forall I n s k d sn b s', ereach I n s -> known_id (e_idt s) d -> known_id (e_idt s) sn ->
  estep I s (EDropSchema k d sn b) = (EDone, s') ->
  exists x y t t', view (e_w s) x = Some t /\ view (e_w s') y = Some t' /\
    ~ In [VString (idString (e_idt s) d); VString (idString (e_idt s) sn)] (rows_in t' 18) /\
    Permutation (rows_in t' 19) (rows_in t 19).
Proof. exact drop_schema_refuted_all. Qed.
Print Assumptions C35_drop_schema_refuted.

(** Dropping a table does nothing. *)
Theorem C35_drop_table_refuted : forall X L G F E I s k tn s',
  @estep F X L G E I s (EDropTable k tn) = (EDone, s') -> s' = s.
Proof. exact @drop_table_lemma. Qed.
Print Assumptions C35_drop_table_refuted.

(** What was in a database or schema is there again when it is created again, a
    table even without; a dropped table can be opened. *)
Example C35_case :
  let s := snd (erun demo_I demo_s0 (firstn 11 demo_calls)) in
  fst (erun demo_I s [EDropDatabase 54 false; EBegin; EOpenTable 1 orders; EListSchemas 1 54; ERollback 1;
                      ECreateDatabase 54 []; EBegin; EListSchemas 2 54; EDropSchema 2 54 55 false; EOpenTable 2 orders;
                      ECreateSchema 2 54 55; EDropTable 2 orders; EOpenTable 2 orders; ECommit 2]) =
    [EDone; EDone; ETable 512 orders_type; EErr ErrNoDatabase; EDone;
     EDone; EDone; ENames [55]; EDone; ETable 512 orders_type;
     EDone; EDone; ETable 512 orders_type; EDone].
Proof. vm_compute. reflexivity. Qed.
