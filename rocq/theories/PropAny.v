(** Property C69: the typed tables and the engine on any storage,
    engine/typedtable.go, engine/engine.go, engine/init.go. *)

From Verif Require Import ModelEngine SpecAny LemmasDemo LemmasDemoTyped LemmasDemoEngine LemmasAny LemmasDemoAny.

(** C69.  Whatever the storage returns: a function of package engine returns no
    error only if all calls went well; the error it returns is that of the call
    that did not go well, after which only row sets were closed; or all calls went
    well, and it is the error for what is missing. *)
Theorem C69_engine : forall (F : Float32Lib) (E : EGobLib) I A p own, engine_function I A p own ->
  forall h r, runs p h r -> eof_from_next h -> passed_on own h r.
Proof. exact @any_tells. Qed.
Print Assumptions C69_engine.

(** The same for typed tables, with the errors of the function that is called for
    every row. *)
Theorem C69_insert : forall ti l own h r, runs (TypedTableInsert ti l) h r -> eof_from_next h -> passed_on own h r.
Proof. exact (fun ti l own => @tells_insert own ti l). Qed.
Print Assumptions C69_insert.

Theorem C69_lookup : forall (F : Float32Lib) ti st h r, runs (TypedTableLookup ti st) h r -> eof_from_next h ->
  passed_on (fun e => e = EOF) h (flat r) /\ forall e, r <> Err e.
Proof. exact @tells_lookup. Qed.
Print Assumptions C69_lookup.

Theorem C69_select : forall S ti mn mx (fn : S -> row -> prog (S * option error)) s, calls_nothing fn ->
  forall h r, runs (TypedTableSelect ti mn mx fn s) h r -> eof_from_next h -> passed_on (gives fn) h (flat r) /\ forall e, r <> Err e.
Proof. exact @any_select. Qed.
Print Assumptions C69_select.

Theorem C69_update : forall S ti mn mx (fn : S -> row -> prog (S * (option upstruct + error))) s, calls_nothing fn ->
  forall h r, runs (TypedTableUpdate ti mn mx fn s) h r -> eof_from_next h -> passed_on (gives_sum fn) h (flat r) /\ forall e, r <> Err e.
Proof. exact @any_update. Qed.
Print Assumptions C69_update.

Theorem C69_delete : forall S ti mn mx (fn : S -> row -> prog (S * (bool + error))) s, calls_nothing fn ->
  forall h r, runs (TypedTableDelete ti mn mx fn s) h r -> eof_from_next h -> passed_on (gives_sum fn) h (flat r) /\ forall e, r <> Err e.
Proof. exact @any_delete. Qed.
Print Assumptions C69_delete.

Example C69_case :
  briefly (completing (dropDatabase demo_I 300 false)) (demo_failing_delete ErrOther ++ [(ODone, 0%nat, 0%nat)]) =
    Some ([(1, ODone); (2, ODone); (3, ORow [VString (str "x")]); (4, ODone); (5, OErr ErrOther); (6, ODone); (9, ODone)], Err ErrOther) /\
  briefly (createSchema demo_I 300 301) [(ODone, 0%nat, 0%nat); (ODone, 7%nat, 0%nat); (OErr EOF, 0%nat, 0%nat); (OErr ErrOther, 0%nat, 0%nat)] =
    Some ([(1, ODone); (2, ODone); (3, OErr EOF); (6, OErr ErrOther)], Err ErrNoDatabase) /\
  briefly (createSchema demo_I 300 301) [(OErr ErrTxCompleted, 0%nat, 0%nat)] = Some ([(1, OErr ErrTxCompleted)], Err ErrTxCompleted) /\
  briefly (completing (listDatabases demo_I)) [(ODone, 0%nat, 0%nat); (ODone, 7%nat, 2%nat); (ORow [VString (str "x")], 0%nat, 0%nat); (OErr EOF, 0%nat, 0%nat); (ODone, 0%nat, 0%nat); (OErr ErrOther, 0%nat, 0%nat)] =
    Some ([(1, ODone); (2, ODone); (3, ORow [VString (str "x")]); (3, OErr EOF); (6, ODone); (8, OErr ErrOther)], Err ErrOther).
Proof. vm_compute. repeat split; reflexivity. Qed.

(** However a function ends, also if it panics: every row set it opened was closed,
    was used only in between, and rows were changed only through the reference to
    the current row of it.  The transaction is not completed. *)
Theorem C69_closes : forall (F : Float32Lib) (E : EGobLib) I A p own, engine_function I A p own ->
  forall h r, runs p h r -> bracketed h.
Proof. exact @any_brackets. Qed.
Print Assumptions C69_closes.

Theorem C69_closes_lookup : forall (F : Float32Lib) ti st h r, runs (TypedTableLookup ti st) h r -> bracketed h.
Proof. exact @brackets_lookup. Qed.
Print Assumptions C69_closes_lookup.

Theorem C69_closes_select : forall S ti mn mx (fn : S -> row -> prog (S * option error)) s, calls_nothing fn ->
  forall h r, runs (TypedTableSelect ti mn mx fn s) h r -> bracketed h.
Proof. exact @bracketed_select. Qed.
Print Assumptions C69_closes_select.

Theorem C69_closes_update : forall S ti mn mx (fn : S -> row -> prog (S * (option upstruct + error))) s, calls_nothing fn ->
  forall h r, runs (TypedTableUpdate ti mn mx fn s) h r -> bracketed h.
Proof. exact @bracketed_update. Qed.
Print Assumptions C69_closes_update.

Theorem C69_closes_delete : forall S ti mn mx (fn : S -> row -> prog (S * (bool + error))) s, calls_nothing fn ->
  forall h r, runs (TypedTableDelete ti mn mx fn s) h r -> bracketed h.
Proof. exact @bracketed_delete. Qed.
Print Assumptions C69_closes_delete.

Example C69_closes_case :
  briefly (TypedTableSelect (i_databases demo_I) None None (fun (s : unit) _ => ppanic) tt)
    [(ODone, 0%nat, 0%nat); (ODone, 7%nat, 1%nat); (ORow [VString (str "x")], 0%nat, 0%nat); (ODone, 0%nat, 0%nat)] =
    Some ([(1, ODone); (2, ODone); (3, ORow [VString (str "x")]); (6, ODone)], Panic).
Proof. vm_compute. reflexivity. Qed.

(** A function with a transaction of its own commits it if there is no error,
    whose error is returned; otherwise it is rolled back, and what that returns is
    ignored.  After a panic the transaction is neither. *)
Theorem C69_completes : forall A (p : prog A) h r, runs (completing p) h r <-> completed p h r.
Proof. exact @completing_runs. Qed.
Print Assumptions C69_completes.

Example C69_completes_case :
  briefly (completing (createDatabase demo_I 300)) [(ODone, 0%nat, 0%nat); (ODone, 0%nat, 0%nat); (ODone, 0%nat, 0%nat)] =
    Some ([(1, ODone); (7, ODone); (8, ODone)], Ok tt) /\
  briefly (completing (createDatabase demo_I 300)) [(ODone, 0%nat, 0%nat); (OErr ErrDuplicateKey, 0%nat, 0%nat); (OErr ErrOther, 0%nat, 0%nat)] =
    Some ([(1, ODone); (7, OErr ErrDuplicateKey); (9, OErr ErrOther)], Err ErrDuplicateKey) /\
  briefly (completing (createDatabase demo_I 300)) [(OPanic, 0%nat, 0%nat)] = Some ([(1, OPanic)], Panic).
Proof. vm_compute. repeat split; reflexivity. Qed.

(** The basic storage is such a storage. *)
Theorem C69_basic : forall (X : FloatLib) (L : CaseLib) (G : GobLib) A w x (p : prog A) r w' h, exec w x p = (r, w', h) ->
  exists h', runs p h' r /\ map (called x) h' = filter is_call h /\ eof_from_next h'.
Proof. exact @basic_runs. Qed.
Print Assumptions C69_basic.

Example C69_basic_case :
  let '(o, w) := step (e_w demo_s0) (Begin (e_next demo_s0)) in
  o = ODone /\
  let '(r, w', h) := exec w (e_next demo_s0) (dropDatabase demo_I 300 false) in
  r = Err ErrNoDatabase /\ map snd (filter is_call h) = [ODone; ODone; OErr EOF; ODone].
Proof. vm_compute. repeat split; reflexivity. Qed.

(** Were another method than [Next] to return [io.EOF], it would be taken for the
    end of the rows: nothing was deleted, and no error is returned. *)
Theorem C69_eof_refuted : forall (F : Float32Lib) (E : EGobLib), exists I A p own h r, engine_function I A p own /\ runs p h r /\ ~ passed_on own h r.
Proof. exact @eof_from_rows. Qed.
Print Assumptions C69_eof_refuted.

Example C69_eof_case :
  briefly (dropDatabase demo_I 300 false) (demo_failing_delete EOF) =
    Some ([(1, ODone); (2, ODone); (3, ORow [VString (str "x")]); (4, ODone); (5, OErr EOF); (6, ODone)], Ok tt).
Proof. vm_compute. reflexivity. Qed.
