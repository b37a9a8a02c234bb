(** Specification for property C69: the engine on any storage. *)

From Verif Require Import ModelEngine.

(** A call of a method of a storage transaction, what it returned, and the
    position of the object that was returned. *)
Definition event : Set := txcall * outcome * nat.

(** The runs of a program, whatever the storage returns, whatever number an
    identifier gets and whatever its name is. *)
Inductive runs {A : Type} : prog A -> list event -> res A -> Prop :=
| run_ret r : runs (PRet r) [] r
| run_call c k o i n h r : runs (k o i n) h r -> runs (PCall c k) ((c, o, i) :: h) r
| run_id s q k id h r : runs (k id) h r -> runs (PID s q k) h r
| run_name i k s h r : runs (k s) h r -> runs (PName i k) h r.

(** A call that went well: [Next] gives a row or says that there are no more;
    [Close] may do what it likes. *)
Definition went_well (e : event) : Prop :=
  match fst e with
  | (CNext _, o) => (exists r, o = ORow r) \/ o = OErr EOF
  | (CClose _, _) => True
  | (_, o) => o = ODone
  end.

(** A call of [Close]; of [Commit] or [Rollback]. *)
Definition is_close (e : event) : Prop := exists rs, fst (fst e) = CClose rs.
Definition is_next (e : event) : Prop := exists rs, fst (fst e) = CNext rs.
Definition completes (e : event) : Prop := fst (fst e) = CCommit \/ fst (fst e) = CRollback.

(** No method but [Next] returns the error [io.EOF]. *)
Definition eof_from_next (h : list event) : Prop :=
  Forall (fun e => snd (fst e) = OErr EOF -> is_next e \/ is_close e) h.

(** What a function returns, given the calls it made: no error only if all calls
    went well; an error either is that of a call, behind which there were only
    calls of [Close]; or all calls went well and the error is one of [own]. *)
Definition passed_on {A} (own : error -> Prop) (h : list event) (r : res A) : Prop :=
  match r with
  | Ok _ => Forall went_well h
  | Err e =>
      (Forall went_well h /\ own e) \/
      exists h1 c i h2, h = h1 ++ (c, OErr e, i) :: h2 /\ Forall went_well h1 /\ ~ went_well (c, OErr e, i) /\ Forall is_close h2
  | Panic => True
  end.

(** The error that is returned besides a value. *)
Definition flat {S} (r : res (S * option error)) : res S :=
  match r with
  | Ok (s, None) => Ok s
  | Ok (_, Some e) => Err e
  | Err e => Err e
  | Panic => Panic
  end.

(** What happens between [Rows], which gave the row set [i], and [Close]: [Next]
    of that row set; [Current] of it, and perhaps a change through the reference
    that was returned. *)
Inductive visits (i : nat) : list event -> Prop :=
| visits_end : visits i []
| visits_next o j h : visits i h -> visits i ((CNext i, o, j) :: h)
| visits_current o j h : visits i h -> visits i ((CCurrent i, o, j) :: h)
| visits_update j cols vals o k h : visits i h -> visits i ((CCurrent i, ODone, j) :: (CUpdate j cols vals, o, k) :: h)
| visits_delete j o k h : visits i h -> visits i ((CCurrent i, ODone, j) :: (CDelete j, o, k) :: h).

(** Tables are made and opened, rows inserted; and every row set that is opened is
    visited and then closed, before anything else happens. *)
Inductive bracketed : list event -> Prop :=
| bracketed_end : bracketed []
| bracketed_open tid tn cols types primary o i h : bracketed h -> bracketed ((COpenTable tid tn cols types primary, o, i) :: h)
| bracketed_create tid tn cols types primary o i h : bracketed h -> bracketed ((CCreateTable tid tn cols types primary, o, i) :: h)
| bracketed_insert tbl rs o i h : bracketed h -> bracketed ((CInsert tbl rs, o, i) :: h)
| bracketed_no_rows tbl cols mn mx p o i h : o <> ODone -> bracketed h -> bracketed ((CRows tbl cols mn mx p, o, i) :: h)
| bracketed_rows tbl cols mn mx p i h1 o j h2 : visits i h1 -> bracketed h2 ->
    bracketed ((CRows tbl cols mn mx p, ODone, i) :: h1 ++ (CClose i, o, j) :: h2).

(** The functions of package engine and the errors they make themselves. *)
Section Own.
  Context {F : Float32Lib} {E : EGobLib}.
  Inductive engine_function (I : einfos) : forall A, prog A -> (error -> Prop) -> Prop :=
  | ef_create_database dn : engine_function I unit (createDatabase I dn) (fun _ => False)
  | ef_drop_database dn ifExists : engine_function I unit (dropDatabase I dn ifExists) (fun e => e = ErrNoDatabase /\ ifExists = false)
  | ef_list_databases : engine_function I (list Z) (listDatabases I) (fun _ => False)
  | ef_create_schema dn sn : engine_function I unit (createSchema I dn sn) (fun e => e = ErrNoDatabase)
  | ef_drop_schema dn sn ifExists : engine_function I unit (dropSchema I dn sn ifExists) (fun e => e = ErrNoSchema /\ ifExists = false)
  | ef_list_schemas dn : engine_function I (list Z) (listSchemas I dn) (fun e => e = ErrNoDatabase)
  | ef_open_table tn : engine_function I (Z * etabletype) (openTable I tn) (fun e => e = ErrNoTable \/ e = ErrGob)
  | ef_create_table tn cols types primary : engine_function I unit (createTable I tn cols types primary) (fun e => e = ErrNoSchema)
  | ef_init : engine_function I unit (initStore I) (fun _ => False).
End Own.

(** What [withTransaction] and the like do around a program. *)
Definition completed {A} (p : prog A) (h : list event) (r : res A) : Prop :=
  exists h1 r1, runs p h1 r1 /\
  match r1 with
  | Ok a => exists o i, h = h1 ++ [(CCommit, o, i)] /\
      r = match o with ODone => Ok a | OErr e => Err e | _ => Panic end
  | Err e => exists o i, h = h1 ++ [(CRollback, o, i)] /\
      r = match o with ODone | OErr _ => Err e | _ => Panic end
  | Panic => h = h1 /\ r = Panic
  end.

(** A function that is called for every row, calls no method of the storage, and
    returns its error besides a value; and the errors it returns that do not only
    say that no more rows are wanted. *)
Definition calls_nothing {S T} (fn : S -> row -> prog T) : Prop :=
  forall s row h r, runs (fn s row) h r -> h = [] /\ forall e, r <> Err e.
Definition gives {S} (fn : S -> row -> prog (S * option error)) (e : error) : Prop :=
  e <> EOF /\ exists s row s', runs (fn s row) [] (Ok (s', Some e)).
Definition gives_sum {S T} (fn : S -> row -> prog (S * (T + error))) (e : error) : Prop :=
  e <> EOF /\ exists s row s', runs (fn s row) [] (Ok (s', inr e)).

(** The calls among what was done by a program with storage transaction [x] of the
    basic store. *)
Definition called (x : nat) (e : event) : op * outcome := (Call x (fst (fst e)), snd (fst e)).
Definition is_call (a : op * outcome) : bool := match fst a with Call _ _ => true | _ => false end.
