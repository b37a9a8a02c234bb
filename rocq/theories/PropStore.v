(** Properties C17 - C21 and C29: storage/basic/basic.go. *)

From Verif Require Import ModelStore SpecStore LemmasBase LemmasWorld LemmasHistory LemmasSerial LemmasRows LemmasDemo.

(** C17.  The committed contents change only by a successful [Commit], and
    then become what the transaction was seeing. *)
Theorem C17_committed_only_by_commit :
  forall (X : FloatLib) (L : CaseLib) (G : GobLib) w o out w',
  reachable w -> step w o = (out, w') ->
  committed w' = committed w \/
  exists x, o = Call x CCommit /\ out = ODone /\ view w x = Some (committed w').
Proof. exact @committed_step. Qed.
Print Assumptions C17_committed_only_by_commit.

(** A transaction starts with the committed contents. *)
Theorem C17_begin_sees_committed :
  forall (X : FloatLib) (L : CaseLib) (G : GobLib) w x w',
  reachable w -> step w (Begin x) = (ODone, w') ->
  view w' x = Some (committed w) /\ committed w' = committed w /\
  tables_of w' x = [] /\ rowsets_of w' x = [] /\ refs_of w' x = [].
Proof. exact @begin_view. Qed.
Print Assumptions C17_begin_sees_committed.

(** What a transaction sees is changed by its own calls only. *)
Theorem C17_view_private :
  forall (X : FloatLib) (L : CaseLib) (G : GobLib) w o out w' x,
  reachable w -> step w o = (out, w') -> active w x -> ~ on_tx x o -> view w' x = view w x.
Proof. exact @view_other. Qed.
Print Assumptions C17_view_private.

(** Three rows in the store; a transaction inserts a fourth, unseen until it
    commits. *)
Example C17_case :
  let before := demo_world demo_setup in
  let during := demo_world (demo_setup ++ [Begin 1; Call 1 demo_open; Call 1 (CInsert 0 [[VInt 7; VNull]])]) in
  let after := demo_world (demo_setup ++ [Begin 1; Call 1 demo_open; Call 1 (CInsert 0 [[VInt 7; VNull]]); Call 1 CCommit]) in
  @reachable demo_X demo_L demo_G during /\
  length (committed before) = 4%nat /\ committed during = committed before /\
  view during 1 = Some (committed after) /\ length (committed after) = 5%nat.
Proof. cbv zeta. split; [apply demo_reachable|]. repeat split; vm_compute; reflexivity. Qed.

(** C18.  Whatever the interleaving, the transactions that commit could have
    run one after the other: there is a history with exactly their operations
    and outcomes (only registrations of identifiers, which anybody may make at
    any time, are added or left out), leaving the same committed contents. *)
Theorem C18_serialisable :
  forall (X : FloatLib) (L : CaseLib) (G : GobLib) t ops outs w,
  run (newStore t) ops = (outs, w) ->
  exists ops' outs' w', run (newStore t) ops' = (outs', w') /\
    without_interns (combine ops' outs') = committed_part (combine ops outs) /\
    committed w' = committed w.
Proof. exact @serial_equivalent. Qed.
Print Assumptions C18_serialisable.

Theorem C18_serial :
  forall (X : FloatLib) (L : CaseLib) (G : GobLib) t ops outs w,
  run (newStore t) ops = (outs, w) -> serial (committed_part (combine ops outs)).
Proof. exact @committed_serial. Qed.
Print Assumptions C18_serial.

(** Transactions 0 and 2 commit, 1 is rolled back, 2 and 3 try to begin too
    early, 3 does not complete. *)
Example C18_case :
  let ops := demo_setup ++
    [Begin 1; Begin 2; Call 1 demo_open; Call 1 (CInsert 0 [[VInt 7; VNull]]); Call 2 CCommit; Call 1 CRollback;
     Begin 2; Begin 3; Call 2 demo_open; Call 2 (CInsert 0 [[VInt 7; VString (str "seven")]]); Call 2 CCommit;
     Begin 3; Call 3 (CDropTable 20)] in
  map fst (committed_part (combine ops (demo_outs ops))) =
    [Begin 0; Call 0 demo_create; Call 0 demo_open; Call 0 (CInsert 0 demo_rows); Call 0 CCommit;
     Begin 2; Call 2 demo_open; Call 2 (CInsert 0 [[VInt 7; VString (str "seven")]]); Call 2 CCommit] /\
  nth_error (demo_outs ops) 11 = Some OBlocked /\ nth_error (demo_outs ops) 20 = Some ODone.
Proof. repeat split; vm_compute; reflexivity. Qed.

(** C19.  At most one transaction is active. *)
Theorem C19_one_active :
  forall (X : FloatLib) (L : CaseLib) (G : GobLib) w x y,
  reachable w -> active w x -> active w y -> x = y.
Proof. exact @active_unique. Qed.
Print Assumptions C19_one_active.

(** [Begin] succeeds exactly when none is, and waits exactly when one is. *)
Theorem C19_begin :
  forall (X : FloatLib) (L : CaseLib) (G : GobLib) w x,
  reachable w -> unused w x ->
  (fst (step w (Begin x)) = ODone <-> forall y, ~ active w y) /\
  (fst (step w (Begin x)) = OBlocked <-> exists y, active w y).
Proof. exact @begin_iff. Qed.
Print Assumptions C19_begin.

Theorem C19_begun_is_active :
  forall (X : FloatLib) (L : CaseLib) (G : GobLib) w x w',
  reachable w -> step w (Begin x) = (ODone, w') -> active w' x.
Proof. exact @begin_active. Qed.
Print Assumptions C19_begun_is_active.

(** After a [Commit] or [Rollback] without error no transaction is active, so
    the next [Begin] succeeds. *)
Theorem C19_completion_releases :
  forall (X : FloatLib) (L : CaseLib) (G : GobLib) w x c w',
  reachable w -> c = CCommit \/ c = CRollback -> step w (Call x c) = (ODone, w') ->
  active w x /\ completed w' x /\ forall y, ~ active w' y.
Proof. exact @complete_inactive. Qed.
Print Assumptions C19_completion_releases.

Example C19_case :
  let w := demo_world (demo_setup ++ [Begin 1]) in
  @reachable demo_X demo_L demo_G w /\ active w 1 /\ unused w 2 /\
  fst (@step demo_X demo_L demo_G w (Begin 2)) = OBlocked /\
  fst (@step demo_X demo_L demo_G w (Call 1 CRollback)) = ODone /\
  fst (@step demo_X demo_L demo_G (snd (@step demo_X demo_L demo_G w (Call 1 CRollback))) (Begin 2)) = ODone.
Proof.
  cbv zeta. split; [apply demo_reachable|]. split; [eexists; split; vm_compute; reflexivity|].
  repeat split; vm_compute; reflexivity.
Qed.

(** C20.  After a rollback the committed contents are those at the beginning,
    and nobody can tell that the transaction ran: everything gives the same
    outcomes as if only some identifiers had been registered. *)
Theorem C20_rollback_no_trace :
  forall (X : FloatLib) (L : CaseLib) (G : GobLib) w x w1 body outs w2 w3,
  reachable w -> step w (Begin x) = (ODone, w1) -> run w1 body = (outs, w2) ->
  step w2 (Call x CRollback) = (ODone, w3) ->
  committed w3 = committed w /\
  exists ids, Forall is_intern ids /\
    forall ops, Forall (fun o => ~ names_tx x o) ops ->
      fst (run w3 ops) = fst (run (snd (run w ids)) ops) /\
      committed (snd (run w3 ops)) = committed (snd (run (snd (run w ids)) ops)).
Proof. exact @rollback_no_trace. Qed.
Print Assumptions C20_rollback_no_trace.

(** A transaction drops a table and creates another, and rolls back. *)
Example C20_case :
  let w := demo_world demo_setup in
  let body := [Call 1 demo_open; Call 1 (CInsert 0 [[VInt 9; VNull]]); Call 1 (CDropTable 20);
               Call 1 (CCreateTable 21 demo_tn demo_cols demo_types (Some demo_key))] in
  let w3 := demo_world (demo_setup ++ Begin 1 :: body ++ [Call 1 CRollback]) in
  let later := [Begin 2; Call 2 demo_open; Call 2 all_rows; Call 2 (CNext 0)] in
  @reachable demo_X demo_L demo_G w /\
  demo_outs (demo_setup ++ Begin 1 :: body ++ [Call 1 CRollback]) = repeat ODone 16 /\
  fst (@run demo_X demo_L demo_G w3 later) = [ODone; ODone; ODone; ORow [VInt 1; VString (str "one")]].
Proof. cbv zeta. split; [apply demo_reachable|]. repeat split; vm_compute; reflexivity. Qed.

(** C21.  A call on a completed transaction, or on an object obtained from it,
    changes nothing at all; [Commit] and [Rollback] return an error; only the
    attributes of tables can be read; all else panics. *)
Theorem C21_completed_is_dead :
  forall (X : FloatLib) (L : CaseLib) (G : GobLib) w x c out w',
  reachable w -> completed w x -> step w (Call x c) = (out, w') ->
  w' = w /\
  match c with
  | CCommit | CRollback => out = OErr ErrTxCompleted
  | CNextStmt => out = ODone
  | CInfo i => match nth_error (tables_of w x) i with Some t => out = OInfo t | None => out = ONoObject end
  | _ => out = OPanic \/ out = ONoObject
  end.
Proof. exact @completed_call. Qed.
Print Assumptions C21_completed_is_dead.

(** It stays completed. *)
Theorem C21_completed_stays :
  forall (X : FloatLib) (L : CaseLib) (G : GobLib) w ops outs w' x,
  reachable w -> run w ops = (outs, w') -> completed w x -> completed w' x.
Proof. exact @completed_run. Qed.
Print Assumptions C21_completed_stays.

Example C21_case :
  let w := demo_world (demo_setup ++ [Begin 1]) in
  @reachable demo_X demo_L demo_G w /\ completed w 0 /\
  fst (@step demo_X demo_L demo_G w (Call 0 (CInsert 0 demo_rows))) = OPanic /\
  fst (@step demo_X demo_L demo_G w (Call 0 CCommit)) = OErr ErrTxCompleted /\
  exists t, fst (@step demo_X demo_L demo_G w (Call 0 (CInfo 0))) = OInfo t /\ tb_tid t = 20.
Proof.
  cbv zeta. split; [apply demo_reachable|]. split; [eexists; split; vm_compute; reflexivity|].
  split; [vm_compute; reflexivity|]. split; [vm_compute; reflexivity|].
  eexists. split; vm_compute; reflexivity.
Qed.

(** C29.  The rows an open row set yields are those it had when it was opened,
    each once, then the end, whatever else happens. *)
Theorem C29_rows_stable :
  forall (X : FloatLib) (L : CaseLib) (G : GobLib) w x i rs ops outs w',
  reachable w -> active w x -> nth_error (rowsets_of w x) i = Some rs -> rs_next rs = 0 ->
  run w ops = (outs, w') -> ~ In (Call x (CClose i)) ops ->
  next_outcomes x i (combine ops outs) =
    map (yields rs) (seq 0 (length (next_outcomes x i (combine ops outs)))) /\
  active w' x.
Proof. exact @rowset_stable. Qed.
Print Assumptions C29_rows_stable.

(** A new row set starts before its first row. *)
Theorem C29_rows_opened :
  forall (X : FloatLib) (L : CaseLib) (G : GobLib) w x i cols mn mx p w',
  reachable w -> step w (Call x (CRows i cols mn mx p)) = (ODone, w') ->
  active w x /\ active w' x /\
  exists items, rowsets_of w' x =
    rowsets_of w x ++ [{| rs_tbl := i; rs_cols := cols; rs_items := items; rs_next := 0 |}].
Proof. exact @rows_opened. Qed.
Print Assumptions C29_rows_opened.

(** [Commit] and [Rollback] of an active transaction panic, changing nothing,
    exactly while not all row sets opened have been closed. *)
Theorem C29_completion_blocked :
  forall (X : FloatLib) (L : CaseLib) (G : GobLib) t ops outs w x c,
  run (newStore t) ops = (outs, w) -> active w x -> c = CCommit \/ c = CRollback ->
  (opened x (combine ops outs) = closed x (combine ops outs) -> fst (step w (Call x c)) = ODone) /\
  (opened x (combine ops outs) <> closed x (combine ops outs) -> step w (Call x c) = (OPanic, w)) /\
  (closed x (combine ops outs) <= opened x (combine ops outs))%nat.
Proof. exact @completion_blocked. Qed.
Print Assumptions C29_completion_blocked.

(** Using a closed row set panics, forever. *)
Theorem C29_closed_panics :
  forall (X : FloatLib) (L : CaseLib) (G : GobLib) w x i ops outs w1 w' c,
  reachable w -> step w (Call x (CClose i)) = (ODone, w1) -> run w1 ops = (outs, w') ->
  c = CNext i \/ c = CCurrent i \/ c = CClose i -> step w' (Call x c) = (OPanic, w').
Proof. exact @closed_panics. Qed.
Print Assumptions C29_closed_panics.

(** The row set opened before an insert and a deletion still yields the old
    rows. *)
Example C29_case :
  let setup := demo_setup ++ [Begin 1; Call 1 demo_open; Call 1 all_rows] in
  let w := demo_world setup in
  let ops := [Call 1 (CNext 0); Call 1 (CCurrent 0); Call 1 (CDelete 0);
              Call 1 (CInsert 0 [[VInt 2000; VNull]]); Call 1 CCommit;
              Call 1 (CNext 0); Call 1 (CNext 0); Call 1 (CNext 0); Call 1 (CNext 0)] in
  @reachable demo_X demo_L demo_G w /\ active w 1 /\
  option_map rs_next (nth_error (rowsets_of w 1) 0) = Some 0 /\
  next_outcomes 1 0 (combine ops (fst (@run demo_X demo_L demo_G w ops))) =
    [ORow [VInt 1; VString (str "one")]; ORow [VInt 2; VNull]; ORow [VInt 3; VString (str "three")];
     OErr EOF; OErr EOF] /\
  nth_error (fst (@run demo_X demo_L demo_G w ops)) 4 = Some OPanic /\
  opened 1 (combine setup (demo_outs setup)) = 1%nat /\
  nth_error (demo_outs (setup ++ ops ++ [Call 1 (CClose 0); Call 1 (CNext 0); Call 1 CCommit])) 23 = Some OPanic /\
  nth_error (demo_outs (setup ++ ops ++ [Call 1 (CClose 0); Call 1 (CNext 0); Call 1 CCommit])) 24 = Some ODone.
Proof.
  cbv zeta. split; [apply demo_reachable|]. split; [eexists; split; vm_compute; reflexivity|].
  repeat split; vm_compute; reflexivity.
Qed.
