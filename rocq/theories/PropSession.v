(** Properties C36, C37 and C38: sessions, evaluate/session.go and
    evaluate/evaluate.go. *)

From Verif Require Import ModelSession SpecSession LemmasSession LemmasSessions LemmasDemo LemmasDemoTyped LemmasDemoEngine.

(** C36.  Every state is one of the machine of [SpecSession], and every statement
    does what it says. *)
Theorem C36_session_states : forall X G L F E, libraries X G L F E -> forall I w, sreach I w -> exists m, srepresents w m.
Proof. exact session_states_all. Qed.
Print Assumptions C36_session_states.

Theorem C36_statement : forall X G L F E, libraries X G L F E ->
  forall I w m i ses st out w', sreach I w -> srepresents w m -> nth_error (s_sessions w) i = Some ses ->
  known_stmt (e_idt (s_e w)) st -> sstep I w (SEval i (Some st)) = (out, w') ->
  let r := smstep (e_idt (s_e w')) m i (ss_database ses) (ss_schema ses) (Resolve (sessionResolver ses) st) in
  same_out out (fst r) /\ srepresents w' (snd r).
Proof. exact statement_all. Qed.
Print Assumptions C36_statement.

(** Outside a transaction a statement succeeds and what it does is committed, or
    fails and what is committed stays; the store is not locked then.  Or it
    panics, and a transaction of nobody stays open. *)
Theorem C36_autocommit : forall X G L F E, libraries X G L F E ->
  forall I w i ses st c out w', sreach I w -> nth_error (s_sessions w) i = Some ses -> unlocked w -> stored w c ->
  statement st = true -> known_stmt (e_idt (s_e w)) st -> sstep I w (SEval i (Some st)) = (out, w') ->
  match alone_effect (e_idt (s_e w')) (Resolve (sessionResolver ses) st) c with
  | (NDone, c') => out = EDone /\ stored w' c' /\ unlocked w'
  | (NErr e, _) => out = EErr e /\ stored w' c /\ unlocked w'
  | (NPanic, _) => out = EPanic /\ stored w' c /\ stuck w'
  | _ => False
  end.
Proof. exact autocommit_all. Qed.
Print Assumptions C36_autocommit.

(** A statement that is not implemented always panics. *)
Theorem C36_unsupported : forall X G L F E, libraries X G L F E ->
  forall I w i ses st c out w', sreach I w -> nth_error (s_sessions w) i = Some ses -> unlocked w -> stored w c ->
  statement st = true -> supported st = false -> known_stmt (e_idt (s_e w)) st -> sstep I w (SEval i (Some st)) = (out, w') ->
  out = EPanic /\ stored w' c /\ stuck w'.
Proof. exact unsupported_all. Qed.
Print Assumptions C36_unsupported.

(** After that, whatever is done, nothing is ever committed again, and all
    statements that need the store wait forever. *)
Theorem C36_locked_forever : forall X G L F E, libraries X G L F E ->
  forall I w c w', sreach I w -> stuck w -> stored w c -> afterwards I (fun _ => True) w w' ->
  stuck w' /\ stored w' c /\
  forall i ses st, nth_error (s_sessions w') i = Some ses -> waits st = true -> known_stmt (e_idt (s_e w')) st ->
    fst (sstep I w' (SEval i (Some st))) = EBlocked.
Proof. exact stuck_all. Qed.
Print Assumptions C36_locked_forever.

(** Two sessions, with defaults maho.public and sales.north; the name "sales" is
    54, "north" 55, "orders" 56, "id" 57, "price" 58, "notes" 59, "maho" 28,
    "public" 33. *)
Definition demo_w0 : sworld := {| s_e := demo_s0; s_sessions := [] |}.
Definition plain_table (t : Z) : tablename := {| tn_database := 0; tn_schema := 0; tn_table := t |}.
Definition primary_on (cols : list Z) : constraint expr :=
  {| con_type := PrimaryConstraint; con_name := 0; con_colnum := -1;
     con_key := {| ik_unique := true; ik_columns := cols; ik_reverse := map (fun _ => false) cols |}; con_check := None |}.
Definition create_demo (t : Z) (key : list Z) (ifNotExists : bool) : stmt :=
  SCreateTable (plain_table t) [57; 58] (firstn 2 demo_types) [None; None] ifNotExists [primary_on key] [].
Definition select_demo : stmt := SSelect None (Some (FromTableAlias (plain_table 56) 0)) None [] None [].

Definition demo_scalls : list scall := [
  SNew 28 33; SNew 54 55;
  SEval 0 (Some (SCreateDatabase 54 []));
  SEval 1 (Some (create_demo 56 [57] false));
  SEval 0 (Some (SCreateSchema {| sn_database := 54; sn_schema := 55 |}));
  SEval 0 (Some (SCreateSchema {| sn_database := 54; sn_schema := 55 |}));
  SEval 1 (Some (create_demo 56 [59] false));
  SEval 1 (Some (create_demo 56 [58; 57] false));
  SEval 1 (Some (create_demo 56 [57] false));
  SEval 1 (Some (create_demo 56 [57] true));
  SEval 0 (Some (SCreateIndex 59 {| tn_database := 54; tn_schema := 55; tn_table := 56 |}
                   {| ik_unique := false; ik_columns := [58]; ik_reverse := [true] |} false));
  SEval 0 (Some (SDropTable false false [plain_table 56]));
  SEval 0 (Some select_demo);
  SEval 1 (Some SBegin); SEval 0 (Some (SCreateDatabase 59 [])); SEval 0 (Some (SSet ID_DATABASE (str "sales")));
  SEval 0 (Some SCommit)].

Lemma demo_knows : forall i, In i [0; 28; 33; 54; 55; 56; 57; 58; 59] -> known_id (e_idt demo_s0) i.
Proof.
  assert (forall i l, find (fun p => fst p =? i) l = Some (i, snd (List.hd (0, []) (filter (fun p => fst p =? i) l))) ->
    exists n : bytes, In (i, n) l) as K by (intros i l H; apply find_some in H as [H _]; eauto).
  intros i [<-|[<-|[<-|[<-|[<-|[<-|[<-|[<-|[<-|[]]]]]]]]]]; unfold known_id; apply K; vm_compute; reflexivity.
Qed.

Example C36_case :
  fst (srun demo_I demo_w0 demo_scalls) =
    [EDone; EDone;
     EDone; EErr ErrNoSchema; EDone; EErr ErrDuplicateKey; EErr ErrNoColumn; EDone; EErr ErrTableExists; EDone; EDone; EDone; EPanic;
     EBlocked; EBlocked; EDone; EErr ErrNoTx] /\
  sreach demo_I demo_w0 /\ Forall (known_scall (e_idt demo_s0)) demo_scalls /\ statement select_demo = true /\ supported select_demo = false.
Proof.
  split; [vm_compute; reflexivity|]. split; [constructor; exact demo_booted|].
  split; [|split; reflexivity]. pose proof demo_knows as K.
  repeat constructor; cbn [known_scall known_stmt]; unfold known_table; cbn; repeat split; try (apply K; cbn; tauto); repeat constructor; apply K; cbn; tauto.
Qed.

(** C37.  BEGIN fails inside a transaction only; otherwise it waits until no
    transaction is open.  COMMIT and ROLLBACK fail outside one only.  Inside,
    databases are not created and not dropped. *)
Theorem C37_protocol : forall X G L F E, libraries X G L F E ->
  forall I h w i ses, sran I h w -> nth_error (s_sessions w) i = Some ses ->
  let ev := fun st => sstep I w (SEval i (Some st)) in
  (inside h i = true ->
    ev SBegin = (EErr ErrInTx, w) /\ fst (ev SCommit) = EDone /\ fst (ev SRollback) = EDone /\
    (forall d o, ev (SCreateDatabase d o) = (EErr ErrInTx, w)) /\ (forall b d o, ev (SDropDatabase b d o) = (EErr ErrInTx, w))) /\
  (inside h i = false ->
    (unlocked w -> fst (ev SBegin) = EDone) /\ (~ unlocked w -> ev SBegin = (EBlocked, w)) /\
    ev SCommit = (EErr ErrNoTx, w) /\ ev SRollback = (EErr ErrNoTx, w)).
Proof. exact protocol_all. Qed.
Print Assumptions C37_protocol.

(** After BEGIN, whatever other sessions do: what is committed does not change;
    others wait; a statement of the session sees what the earlier ones did; and
    all this is committed by COMMIT, and nothing by ROLLBACK. *)
Theorem C37_transaction : forall X G L F E, libraries X G L F E ->
  forall I w i ses c w1 w2 c2, sreach I w -> nth_error (s_sessions w) i = Some ses -> stored w c ->
  sstep I w (SEval i (Some SBegin)) = (EDone, w1) -> during I i w1 c w2 c2 ->
  stored w2 c /\
  (forall j ses' st, j <> i -> nth_error (s_sessions w2) j = Some ses' -> waits st = true -> known_stmt (e_idt (s_e w2)) st ->
    fst (sstep I w2 (SEval j (Some st))) = EBlocked) /\
  (forall ses' st out w3, nth_error (s_sessions w2) i = Some ses' -> statement st = true -> known_stmt (e_idt (s_e w2)) st ->
    sstep I w2 (SEval i (Some st)) = (out, w3) ->
    same_out out (fst (inside_effect (e_idt (s_e w3)) (Resolve (sessionResolver ses') st) c2))) /\
  (forall out w3, sstep I w2 (SEval i (Some SCommit)) = (out, w3) -> out = EDone /\ stored w3 c2 /\ unlocked w3) /\
  (forall out w3, sstep I w2 (SEval i (Some SRollback)) = (out, w3) -> out = EDone /\ stored w3 c /\ unlocked w3).
Proof. exact transaction_all. Qed.
Print Assumptions C37_transaction.

Definition demo_tcalls : list scall := [
  SNew 28 33; SNew 28 33; SEval 0 (Some SCommit);
  SEval 0 (Some SBegin); SEval 0 (Some SBegin); SEval 1 (Some SBegin); SEval 0 (Some (SCreateDatabase 54 []));
  SEval 0 (Some (create_demo 56 [57] false)); SEval 1 (Some (create_demo 56 [57] false)); SEval 1 (Some SRollback);
  SEval 0 (Some (create_demo 56 [57] false)); SEval 0 (Some SRollback); SEval 0 (Some SRollback);
  SEval 1 (Some SBegin); SEval 1 (Some (create_demo 56 [57] false)); SEval 1 (Some SCommit);
  SEval 0 (Some (create_demo 56 [57] false))].

Example C37_case :
  fst (srun demo_I demo_w0 demo_tcalls) =
    [EDone; EDone; EErr ErrNoTx;
     EDone; EErr ErrInTx; EBlocked; EErr ErrInTx; EDone; EBlocked; EErr ErrNoTx; EErr ErrTableExists; EDone; EErr ErrNoTx;
     EDone; EDone; EDone; EErr ErrTableExists] /\
  Forall (known_scall (e_idt demo_s0)) demo_tcalls /\
  let h := rev (combine demo_tcalls (fst (srun demo_I demo_w0 demo_tcalls))) in
  map (fun k => inside (skipn k h) 0) [0; 5; 6; 13; 14]%nat = [false; false; true; true; false].
Proof.
  split; [vm_compute; reflexivity|]. split; [|vm_compute; reflexivity]. pose proof demo_knows as K.
  repeat constructor; cbn [known_scall known_stmt]; unfold known_table; cbn; repeat split; try (apply K; cbn; tauto); repeat constructor; apply K; cbn; tauto.
Qed.

(** C38.  The name of a table or schema is completed from the defaults. *)
Theorem C38_table_name : forall ses tn tn', full_table (ss_database ses) (ss_schema ses) tn tn' <-> tn' = sessionTable ses tn.
Proof. exact table_full. Qed.
Print Assumptions C38_table_name.

Theorem C38_schema_name : forall ses sn sn', full_schema (ss_database ses) sn sn' <-> sn' = sessionSchema ses sn.
Proof. exact schema_full. Qed.
Print Assumptions C38_schema_name.

Theorem C38_idempotent : forall ses tn sn,
  sessionTable ses (sessionTable ses tn) = sessionTable ses tn /\ sessionSchema ses (sessionSchema ses sn) = sessionSchema ses sn.
Proof. exact resolve_idempotent. Qed.
Print Assumptions C38_idempotent.

(** A name that was completed is not changed by another session, if there was a
    default database. *)
Theorem C38_stays : forall ses ses' tn sn, given (ss_database ses) ->
  sessionTable ses' (sessionTable ses tn) = sessionTable ses tn /\ sessionSchema ses' (sessionSchema ses sn) = sessionSchema ses sn.
Proof. exact resolve_stays. Qed.
Print Assumptions C38_stays.

(** SET DATABASE and SET SCHEMA change one default of the session and nothing
    else. *)
Theorem C38_set : forall X L G F E I w i ses val var, nth_error (s_sessions w) i = Some ses -> var = ID_DATABASE \/ var = ID_SCHEMA ->
  let id := snd (ID (e_idt (s_e w)) val false) in
  exists w', @sstep F X L G E I w (SEval i (Some (SSet var val))) = (EDone, w') /\
    nth_error (s_sessions w') i = Some {| ss_tx := ss_tx ses; ss_database := if var =? ID_DATABASE then id else ss_database ses;
                                          ss_schema := if var =? ID_DATABASE then ss_schema ses else id |} /\
    (forall j, j <> i -> nth_error (s_sessions w') j = nth_error (s_sessions w) j) /\
    committed (e_w (s_e w')) = committed (e_w (s_e w)) /\ forall x, view (e_w (s_e w')) x = view (e_w (s_e w)) x.
Proof. exact @set_default. Qed.
Print Assumptions C38_set.

Theorem C38_set_other : forall X L G F E I w i ses val var, nth_error (s_sessions w) i = Some ses -> var <> ID_DATABASE -> var <> ID_SCHEMA ->
  @sstep F X L G E I w (SEval i (Some (SSet var val))) = (EErr ErrNoVariable, w).
Proof. exact @set_other. Qed.
Print Assumptions C38_set_other.

(** A statement is resolved by completing the names of the tables or schemas that
    it is about, and nothing else. *)
Theorem C38_statement : forall ses st, exists tns sns,
  Forall2 (full_table (ss_database ses) (ss_schema ses)) (fst (about st)) tns /\
  Forall2 (full_schema (ss_database ses)) (snd (about st)) sns /\
  Resolve (sessionResolver ses) st = about_others st tns sns.
Proof. exact statement_names. Qed.
Print Assumptions C38_statement.

(** So all tables that a statement names are completed, if these are the ones it
    is about. *)
Theorem C38_own_tables : forall ses st, stmt_tables st = fst (about st) ->
  stmt_tables (Resolve (sessionResolver ses) st) = map (sessionTable ses) (stmt_tables st).
Proof. exact resolved_tables. Qed.
Print Assumptions C38_own_tables.

(** But other tables that a statement names are not: those in SELECT, in
    subqueries, and those that foreign keys refer to. *)
Theorem C38_statement_tables_refuted :
  ~ forall ses st, stmt_tables (Resolve (sessionResolver ses) st) = map (sessionTable ses) (stmt_tables st).
Proof. exact unresolved_tables. Qed.
Print Assumptions C38_statement_tables_refuted.

Theorem C38_select_refuted : forall ses rs f c g h o,
  Resolve (sessionResolver ses) (SSelect rs f c g h o) = SSelect rs f c g h o.
Proof. exact unresolved_select. Qed.
Print Assumptions C38_select_refuted.

Theorem C38_reference_refuted : forall ses tn cols types d b csts fks,
  exists tn', Resolve (sessionResolver ses) (SCreateTable tn cols types d b csts fks) = SCreateTable tn' cols types d b csts fks.
Proof. exact unresolved_reference. Qed.
Print Assumptions C38_reference_refuted.

Example C38_case :
  let ses := {| ss_tx := None; ss_database := 28; ss_schema := 33 |} in
  sessionTable ses (plain_table 56) = {| tn_database := 28; tn_schema := 33; tn_table := 56 |} /\
  sessionTable ses {| tn_database := 0; tn_schema := 55; tn_table := 56 |} = {| tn_database := 28; tn_schema := 55; tn_table := 56 |} /\
  sessionTable ses {| tn_database := 54; tn_schema := 0; tn_table := 56 |} = {| tn_database := 54; tn_schema := 0; tn_table := 56 |} /\
  sessionSchema ses {| sn_database := 0; sn_schema := 55 |} = {| sn_database := 28; sn_schema := 55 |} /\
  given (ss_database ses) /\ stmt_tables (create_demo 56 [57] true) = fst (about (create_demo 56 [57] true)) /\
  map ss_database (s_sessions (snd (srun demo_I demo_w0 [SNew 28 33; SNew 28 33; SEval 0 (Some (SSet ID_DATABASE (str "sales")))]))) = [54; 28] /\
  stmt_tables (Resolve (sessionResolver ses) (SDelete (plain_table 56) (Some (Subquery ModelSql.Exists AddOp None select_demo)))) =
    [{| tn_database := 28; tn_schema := 33; tn_table := 56 |}; plain_table 56].
Proof. vm_compute. repeat split; discriminate. Qed.
