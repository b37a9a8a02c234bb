(** storage/test: the driver of the tests of a storage engine, over storage/basic. *)

From Verif Require Export ModelStore ModelTestutil.

(** [OpenTable] ... [UpdateSet], storage/test/test.go:79-180: the cases.  [None] for a
    list or a row is nil. *)
Inductive tcase : Type :=
  | TOpenTable (tid : Z) (cols : list Z) (types : list coltype) (primary : option (list Z)) (panicked : bool)
  | TCreateTable (tid : Z) (cols : list Z) (types : list coltype) (primary : option (list Z)) (panicked : bool)
  | TDropTable (tid : Z) (panicked : bool)
  | TTableType (tid : Z) (ver : Z) (cols : list Z) (types : list coltype) (key : option (list Z))
  | TCommit (panicked : bool)
  | TRollback (panicked : bool)
  | TNextStmt
  | TRows (cols : option (list Z)) (minRow maxRow : option row) (pred : option predicate) (fails : bool)
  | TUpdate (cols : list Z) (vals : list value) (fails panicked : bool)
  | TDelete (fails panicked : bool)
  | TInsert (rows : list row) (fails : bool)
  | TNext (r : row) (fails eof panicked : bool)
  | TCurrent (fails panicked : bool)
  | TClose (fails panicked : bool)
  | TSelect (cols : option (list Z)) (minRow maxRow : option row) (pred : option predicate) (rows : list row) (unordered : bool)
  | TDeleteFrom (minRow maxRow : option row) (pred : option predicate)
  | TUpdateSet (minRow maxRow : option row) (pred : option predicate) (update : row -> list Z * list value).

(** The variables of [testStorage], storage/test/test.go:220, 225-227, and what is behind
    them: the store and the transaction; [tx], [tbl], [rows], [rowRef] ([None] is nil); and
    whether [t.Errorf] was called. *)
Record tstate : Type := {
  ts_state : shared * txstate;
  ts_tx : bool;
  ts_tbl : option nat;
  ts_rows : option nat;
  ts_ref : option nat;
  ts_failed : bool
}.

(** Assignments to the variables; no counterpart in the code.  They are
    those of storage/test/test.go:220-226. *)
Definition ts_with_state (s : tstate) (x : shared * txstate) : tstate :=
  {| ts_state := x; ts_tx := ts_tx s; ts_tbl := ts_tbl s; ts_rows := ts_rows s; ts_ref := ts_ref s; ts_failed := ts_failed s |}.
Definition ts_with_tx (s : tstate) (b : bool) : tstate :=
  {| ts_state := ts_state s; ts_tx := b; ts_tbl := ts_tbl s; ts_rows := ts_rows s; ts_ref := ts_ref s; ts_failed := ts_failed s |}.
Definition ts_with_tbl (s : tstate) (o : option nat) : tstate :=
  {| ts_state := ts_state s; ts_tx := ts_tx s; ts_tbl := o; ts_rows := ts_rows s; ts_ref := ts_ref s; ts_failed := ts_failed s |}.
Definition ts_with_rows (s : tstate) (o : option nat) : tstate :=
  {| ts_state := ts_state s; ts_tx := ts_tx s; ts_tbl := ts_tbl s; ts_rows := o; ts_ref := ts_ref s; ts_failed := ts_failed s |}.
Definition ts_with_ref (s : tstate) (o : option nat) : tstate :=
  {| ts_state := ts_state s; ts_tx := ts_tx s; ts_tbl := ts_tbl s; ts_rows := ts_rows s; ts_ref := o; ts_failed := ts_failed s |}.
Definition ts_fail (s : tstate) (b : bool) : tstate :=
  {| ts_state := ts_state s; ts_tx := ts_tx s; ts_tbl := ts_tbl s; ts_rows := ts_rows s; ts_ref := ts_ref s; ts_failed := ts_failed s || b |}.

(** [err != nil].  As in storage/test/test.go:190-216. *)
Definition errs (o : outcome) : bool := match o with OErr _ => true | _ => false end.

(** The conditions under which [t.Errorf] is called: with a [panicked] field, with a
    [fail] field, with both, storage/test/test.go:238-246, 343-349, 354-366. *)
Definition wrongPanic (o : outcome) (panicked : bool) : bool :=
  match o with OPanic => negb panicked | _ => panicked || errs o end.
Definition wrongFail (o : outcome) (fails : bool) : bool := if fails then negb (errs o) else errs o.
Definition wrongBoth (o : outcome) (fails panicked : bool) : bool :=
  match o with OPanic => negb panicked | _ => if panicked then true else wrongFail o fails end.

Section Driver.
  Context {X : FloatLib} {L : CaseLib} {G : GobLib} {S : SortLib}.

  (** A method is called; a completed transaction stays what it is, only [tx] is nil. *)
  Definition tcall (s : tstate) (c : txcall) : outcome * tstate :=
    let '(o, x) := callStep (ts_state s) c in (o, ts_with_state s x).

  (** [tableName], storage/test/test.go:71-77; [types.ID] may register the names. *)
  Definition testTableName (tid : Z) (s : tstate) : tablename * tstate :=
    let sh := fst (ts_state s) in
    let '(t, d) := ID (sh_idt sh) (str "db") false in
    let '(t, c) := ID t (str "scm") false in
    let '(t, n) := ID t (str "tbl" ++ format_int tid) false in
    ({| tn_database := d; tn_schema := c; tn_table := n |}, ts_with_state s (sh_with_idt sh t, snd (ts_state s))).

  (** The loop of [selectFunc], storage/test/test.go:196-212; [fn] is the function it is
      given, with what was gathered so far.  The fuel is more than the rows there are.
      [None] is a panic. *)
  Fixpoint selectLoop {A} (n : nat) (rs : nat) (fn : A -> tstate -> nat -> row -> option (A * tstate)) (a : A) (s : tstate)
    : option (A * tstate) :=
    match n with
    | O => None
    | Datatypes.S n' =>
        match tcall s (CNext rs) with
        | (ORow r, s) =>
            let ref := length (tx_refs (snd (ts_state s))) in
            match tcall s (CCurrent rs) with
            | (ODone, s) => match fn a s ref r with Some (a, s) => selectLoop n' rs fn a s | None => None end
            | (OErr _, s) => Some (a, ts_fail s true)
            | _ => None
            end
        | (OErr EOF, s) => Some (a, s)
        | (OErr _, s) => Some (a, ts_fail s true)
        | _ => None
        end
    end.

  (** [selectFunc], storage/test/test.go:182-218. *)
  Definition selectFunc {A} (cols : option (list Z)) (minRow maxRow : option row) (pred : option predicate)
      (fn : A -> tstate -> nat -> row -> option (A * tstate)) (a : A) (s : tstate) : option (A * tstate) :=
    match ts_tbl s with
    | None => None
    | Some tbl =>
        let rs := length (tx_rows (snd (ts_state s))) in
        match tcall s (CRows tbl cols minRow maxRow pred) with
        | (ODone, s) =>
            let n := match nth_error (tx_rows (snd (ts_state s))) rs with Some r => length (rs_items r) | None => O end in
            match selectLoop (Datatypes.S n) rs fn a s with
            | None => None
            | Some (a, s) =>
                match tcall s (CClose rs) with
                | (OPanic, _) => None
                | (o, s) => Some (a, ts_fail s (errs o))
                end
            end
        | (OErr _, s) => Some (a, ts_fail s true)
        | _ => None
        end
    end.

  (** A report that names the table: [tbl.TID()] panics if there is none. *)
  Definition reportTable (wrong : bool) (s : tstate) : option tstate :=
    match wrong, ts_tbl s with
    | true, None => None
    | _, _ => Some (ts_fail s wrong)
    end.

  (** One case of [testStorage], storage/test/test.go:230-483; [None] is a panic of the test.
      Which panics have a text for a value (those are recovered from) is not modelled: all
      panics of methods count as such. *)
  Definition testCase (s : tstate) (c : tcase) : option tstate :=
    match c with
    | TOpenTable tid cols types primary panicked =>
        if negb (ts_tx s) then None
        else
          let '(cols, types, primary) := SetupColumns cols types primary in
          let '(tn, s) := testTableName tid s in
          let new := length (tx_tables (snd (ts_state s))) in
          let '(o, s) := tcall s (COpenTable tid tn cols types primary) in
          Some (ts_fail (ts_with_tbl s (match o with ODone => Some new | _ => None end)) (wrongPanic o panicked))
    | TCreateTable tid cols types primary panicked =>
        if negb (ts_tx s) then None
        else
          let '(tn, s) := testTableName tid s in
          let '(cols, types, primary) := SetupColumns cols types primary in
          let '(o, s) := tcall s (CCreateTable tid tn cols types (Some primary)) in
          Some (ts_fail s (wrongPanic o panicked))
    | TDropTable tid panicked =>
        if negb (ts_tx s) then None
        else let '(o, s) := tcall s (CDropTable tid) in Some (ts_fail s (wrongPanic o panicked))
    | TTableType tid ver cols types key =>
        match ts_tbl s with
        | None => None
        | Some tbl =>
            match tcall s (CInfo tbl) with
            | (OInfo t, s) =>
                let '(tn, s) := testTableName tid s in
                if negb (ts_tx s) then None
                else
                  let '(cols, types, key) := SetupColumns cols types key in
                  Some (ts_fail s
                    (negb (tb_tid t =? tid) || negb (tablename_eqb (tt_name (tb_tt t)) tn) || negb (tt_version (tb_tt t) =? ver) ||
                     negb (list_eqb Z.eqb (tt_cols (tb_tt t)) cols) || negb (list_eqb coltype_eqb (tt_types (tb_tt t)) types) ||
                     negb (list_eqb Z.eqb (tt_key (tb_tt t)) key)))
            | _ => None
            end
        end
    | TCommit panicked =>
        if negb (ts_tx s) then None
        else
          let '(o, s) := tcall s CCommit in
          Some (ts_fail (ts_with_tx s (match o with ODone => false | _ => true end)) (wrongPanic o panicked))
    | TRollback panicked =>
        if negb (ts_tx s) then None
        else
          let '(o, s) := tcall s CRollback in
          Some (ts_fail (ts_with_tx s (match o with ODone => false | OErr _ => negb panicked | _ => true end)) (wrongPanic o panicked))
    | TNextStmt => if negb (ts_tx s) then None else Some (snd (tcall s CNextStmt))
    | TRows cols minRow maxRow pred fails =>
        match ts_tbl s with
        | None => None
        | Some tbl =>
            let new := length (tx_rows (snd (ts_state s))) in
            match tcall s (CRows tbl cols minRow maxRow pred) with
            | (OPanic, _) => None
            | (o, s) => Some (ts_fail (ts_with_rows s (match o with ODone => Some new | _ => None end)) (wrongFail o fails))
            end
        end
    | TUpdate cols vals fails panicked =>
        match ts_ref s with
        | None => None
        | Some ref => let '(o, s) := tcall s (CUpdate ref cols vals) in reportTable (wrongBoth o fails panicked) s
        end
    | TDelete fails panicked =>
        match ts_ref s with
        | None => None
        | Some ref => let '(o, s) := tcall s (CDelete ref) in reportTable (wrongBoth o fails panicked) s
        end
    | TInsert rows fails =>
        match ts_tbl s with
        | None => None
        | Some tbl =>
            match tcall s (CInsert tbl rows) with
            | (OPanic, _) => None
            | (o, s) => Some (ts_fail s (wrongFail o fails))
            end
        end
    | TNext r fails eof panicked =>
        match ts_rows s with
        | None => None
        | Some rs =>
            let '(o, s) := tcall s (CNext rs) in
            match o with
            | OPanic => reportTable (negb panicked) s
            | _ =>
                if panicked then reportTable true s
                else if fails then reportTable (negb (errs o)) s
                else if eof then reportTable (match o with OErr EOF => false | _ => true end) s
                else
                  match CompareRows (match o with ORow r => r | _ => [] end) r with
                  | None => None
                  | Some Eq => Some s
                  | Some _ => reportTable true s
                  end
            end
        end
    | TCurrent fails panicked =>
        match ts_rows s with
        | None => None
        | Some rs =>
            let new := length (tx_refs (snd (ts_state s))) in
            let '(o, s) := tcall s (CCurrent rs) in
            reportTable (wrongBoth o fails panicked) (ts_with_ref s (match o with ODone => Some new | _ => None end))
        end
    | TClose fails panicked =>
        match ts_rows s with
        | None => None
        | Some rs => let '(o, s) := tcall s (CClose rs) in reportTable (wrongBoth o fails panicked) s
        end
    | TSelect cols minRow maxRow pred rows unordered =>
        match selectFunc cols minRow maxRow pred (fun l s _ r => Some (l ++ [r], s)) [] s with
        | None => None
        | Some (l, s) =>
            match RowsEqual l rows unordered with
            | None => None
            | Some b => Some (ts_fail s (negb b))
            end
        end
    | TDeleteFrom minRow maxRow pred =>
        option_map snd (selectFunc None minRow maxRow pred
          (fun _ s ref _ => match tcall s (CDelete ref) with (OPanic, _) => None | (o, s) => Some (tt, ts_fail s (errs o)) end) tt s)
    | TUpdateSet minRow maxRow pred update =>
        option_map snd (selectFunc None minRow maxRow pred
          (fun _ s ref r =>
             let '(cols, vals) := update r in
             match tcall s (CUpdate ref cols vals) with (OPanic, _) => None | (o, s) => Some (tt, ts_fail s (errs o)) end) tt s)
    end.

  (** [testStorage], storage/test/test.go:220-485. *)
  Fixpoint testCases (s : tstate) (l : list tcase) : option tstate :=
    match l with
    | [] => Some s
    | c :: l' => match testCase s c with Some s => testCases s l' | None => None end
    end.
  Definition testStorage (x : shared * txstate) (l : list tcase) : option tstate :=
    testCases {| ts_state := x; ts_tx := true; ts_tbl := None; ts_rows := None; ts_ref := None; ts_failed := false |} l.
End Driver.
