(** storage/basic/basic.go with goroutines that are interrupted anywhere: a method is a
    sequence of actions, an access to the variable [tree] of the store or to a tree
    takes time, and only the mutex keeps goroutines apart. *)

From Verif Require Export ModelStore.

(** What a method has still to do, storage/basic/basic.go:83-474.  The fields of a
    transaction and what was obtained from it are used by one goroutine at a time: that
    is up to the caller.  A nil pointer ends the method with a panic. *)
Inductive scode : Set :=
| SRet (out : outcome)
| SGet (k : txstate -> scode)              (* the transaction and its objects *)
| SPut (tx : txstate) (k : scode)          (* rowsCount, tables, rows, row references *)
| SNil (k : scode)                         (* tx.st = nil; tx.tree = nil, lines 236-237, 249-250 *)
| SStoreTree (k : nat -> scode)            (* tx.st.tree, lines 259-260 *)
| SSetStoreTree (k : scode)                (* tx.st.tree = tx.tree, line 234 *)
| SClone (h : nat) (k : scode)             (* tx.tree = h.Clone(), line 260 *)
| SRead (k : tree -> scode)                (* Get, Has, AscendGreaterOrEqual of tx.tree *)
| SWrite (t : tree) (k : scode)            (* ReplaceOrInsert, Delete of tx.tree *)
| SDecode (wt : wiretype) (k : tabletype -> scode) (* the identifiers of a table type, line 110 *)
| SEncode (ty : tabletype) (k : wiretype -> scode) (* line 123 *)
| SUnlock (k : scode).                     (* tx.st.mutex.Unlock(), lines 235, 248 *)

(** Plumbing: a part of a method, given what comes after it; an error or a panic ends
    the method (storage/basic/basic.go:139-474 has no recover). *)
Definition SM (A : Type) : Type := (A -> scode) -> scode.
Definition sret {A} (a : A) : SM A := fun k => k a.
Definition sfail {A} (e : error) : SM A := fun _ => SRet (OErr e).
Definition spanic {A} : SM A := fun _ => SRet OPanic.
Definition sbind {A B} (m : SM A) (f : A -> SM B) : SM B := fun k => m (fun a => f a k).
Definition slift {A} (o : option A) : SM A := match o with Some a => sret a | None => spanic end.
Definition sliftRes {A} (r : res A) : SM A := match r with Ok a => sret a | Err e => sfail e | Panic => spanic end.
Definition sgetTx : SM txstate := SGet.
Definition sputTx (tx : txstate) : SM unit := fun k => SPut tx (k tt).
Definition sread : SM tree := SRead.
Definition swrite (t : tree) : SM unit := fun k => SWrite t (k tt).
Notation "'let%' x := m 'in' k" := (sbind m (fun x => k)) (at level 200, x name, m at level 100, k at level 200).
Notation "m ;% k" := (sbind m (fun _ => k)) (at level 100, right associativity).

(** [forWrite], storage/basic/basic.go:258-262: the variable is read for the comparison
    and again for [Clone]. *)
Definition sforWrite : SM unit :=
  let% h := SStoreTree in
  let% tx := sgetTx in
  if match tx_tree tx with Some h' => (h' =? h)%nat | None => false end then
    let% h := SStoreTree in
    fun k => SClone h (k tt)
  else sret tt.

Section Store.
  Context {X : FloatLib} {L : CaseLib} {G : GobLib}.

  (** [getTableType], storage/basic/basic.go:100-119; [None] is nil.  Decoding the
      identifiers of a table type (calls of [types.ID], C71) is one action. *)
  Definition sgetTableType (tid : Z) : SM (option tabletype) :=
    let% it := slift (rowToItem tableTypesRelation tableTypesKey (Some [VInt tid])) in
    let% t := sread in
    match t_get t it with
    | None => sret None
    | Some it =>
        match it_row it with
        | [_; VBytes b] =>
            match x_gob_decode b with
            | None => spanic
            | Some wt => let% ty := SDecode wt in sret (Some ty)
            end
        | _ => spanic
        end
    end.

  (** [setTableType], storage/basic/basic.go:121-131. *)
  Definition ssetTableType (tid : Z) (ty : tabletype) : SM unit :=
    let% wt := SEncode ty in
    let% it := slift (rowToItem tableTypesRelation tableTypesKey (Some [VInt tid; VBytes (x_gob_encode wt)])) in
    let% t := sread in
    swrite (t_replace_or_insert t it).

  (** [deleteTableType], storage/basic/basic.go:133-137. *)
  Definition sdeleteTableType (tid : Z) : SM bool :=
    let% it := slift (rowToItem tableTypesRelation tableTypesKey (Some [VInt tid])) in
    let% t := sread in
    swrite (fst (t_delete t it)) ;% sret (snd (t_delete t it)).

  (** [OpenTable], storage/basic/basic.go:139-169. *)
  Definition sOpenTable (tid : Z) (tn : tablename) (colNames : list Z) (colTypes : list coltype)
      (primary : list Z) : SM unit :=
    let% ott := sgetTableType tid in
    match ott with
    | None => spanic
    | Some ty =>
        if negb (tablename_eqb tn (tt_name ty)) then spanic
        else if negb (list_eqb Z.eqb colNames (tt_cols ty)) then spanic
        else if negb (list_eqb coltype_eqb colTypes (tt_types ty)) then spanic
        else if negb (list_eqb Z.eqb primary (tt_key ty)) then spanic
        else
          let% tx := sgetTx in
          sputTx (tx_with_tables tx (tx_tables tx ++ [{| tb_tid := tid; tb_tt := ty |}]))
    end.

  (** [CreateTable], storage/basic/basic.go:171-211. *)
  Definition sCreateTable (tid : Z) (tn : tablename) (colNames : list Z) (colTypes : list coltype)
      (primary : option (list Z)) : SM unit :=
    if tid <? EngineTableId then spanic
    else
      let% ott := sgetTableType tid in
      match ott with
      | Some _ => spanic
      | None =>
          if negb (zlen colNames =? zlen colTypes) then spanic
          else
            match primary with
            | None => spanic
            | Some primary =>
                if badRowId 0 colNames colTypes primary then sfail ErrRowIdColumn
                else if existsb (fun ck => zlen colNames <=? ckColumn ck) primary then spanic
                else
                  sforWrite ;%
                  ssetTableType tid {| tt_version := 1; tt_name := tn; tt_cols := colNames;
                                       tt_types := colTypes; tt_key := primary |}
            end
      end.

  (** [DropTable], storage/basic/basic.go:213-225. *)
  Definition sDropTable (tid : Z) : SM unit :=
    let% ott := sgetTableType tid in
    match ott with
    | None => spanic
    | Some _ =>
        sforWrite ;%
        let% ok := sdeleteTableType tid in
        if ok then sret tt else spanic
    end.

  (** [Commit], storage/basic/basic.go:227-239. *)
  Definition sCommit : SM unit :=
    let% tx := sgetTx in
    if negb (tx_live tx) then sfail ErrTxCompleted
    else if negb (tx_count tx =? 0) then spanic
    else fun k => SSetStoreTree (SUnlock (SNil (k tt))).

  (** [Rollback], storage/basic/basic.go:241-252. *)
  Definition sRollback : SM unit :=
    let% tx := sgetTx in
    if negb (tx_live tx) then sfail ErrTxCompleted
    else if negb (tx_count tx =? 0) then spanic
    else fun k => SUnlock (SNil (k tt)).

  (** [Rows], storage/basic/basic.go:324-365. *)
  Definition sRows (tblIdx : nat) (tbl : table) (cols : option (list Z)) (minRow maxRow : option row)
      (pred : option predicate) : SM unit :=
    let rel := toRelationId (tb_tid tbl) in
    let key := tt_key (tb_tt tbl) in
    let% maxItem :=
      match maxRow with
      | None => sret None
      | Some _ => let% it := slift (rowToItem rel key maxRow) in sret (Some it)
      end in
    let% predFn :=
      match pred with
      | None => sret None
      | Some p =>
          let% ct := slift (znth (tt_types (tb_tt tbl)) (p_column p)) in
          let% f := slift (predicateFunction p ct) in
          sret (Some (p_column p, f))
      end in
    let% minItem := slift (rowToItem rel key minRow) in
    let% t := sread in
    let% items := slift (scanItems rel maxItem predFn (t_ascend_ge t minItem)) in
    let% tx := sgetTx in
    sputTx (tx_with_rows (tx_with_count tx (tx_count tx + 1))
             (tx_rows tx ++ [{| rs_tbl := tblIdx; rs_cols := cols; rs_items := items; rs_next := 0 |}])).

  (** The loop of [Insert], storage/basic/basic.go:371-384. *)
  Fixpoint sinsertRows (tbl : table) (rs : list row) : SM unit :=
    match rs with
    | [] => sret tt
    | r :: rs' =>
        let% r := sliftRes (ConvertRow (tt_types (tb_tt tbl)) r) in
        let% it := slift (rowToItem (toRelationId (tb_tid tbl)) (tt_key (tb_tt tbl)) (Some r)) in
        let% t := sread in
        if t_has t it then sfail ErrDuplicateKey
        else
          let% t := sread in
          swrite (t_replace_or_insert t it) ;%
          sinsertRows tbl rs'
    end.

  (** [Insert], storage/basic/basic.go:367-387. *)
  Definition sInsert (tbl : table) (rs : list row) : SM unit :=
    sforWrite ;% sinsertRows tbl rs.

  (** [Next], storage/basic/basic.go:389-408. *)
  Definition sNext (idx : nat) (rs : rowset) : SM row :=
    if rs_next rs <? 0 then spanic
    else if rs_next rs =? zlen (rs_items rs) then sfail EOF
    else
      let% it := slift (znth (rs_items rs) (rs_next rs)) in
      let% tx := sgetTx in
      sputTx (tx_with_rows tx (set_nth idx
        {| rs_tbl := rs_tbl rs; rs_cols := rs_cols rs; rs_items := rs_items rs;
           rs_next := rs_next rs + 1 |} (tx_rows tx))) ;%
      match rs_cols rs with
      | Some cols => slift (projectRow cols (it_row it))
      | None => sret (it_row it)
      end.

  (** [Current], storage/basic/basic.go:410-419. *)
  Definition sCurrent (rs : rowset) : SM unit :=
    if rs_next rs <=? 0 then spanic
    else
      let% it := slift (znth (rs_items rs) (rs_next rs - 1)) in
      let% tx := sgetTx in
      sputTx (tx_with_refs tx (tx_refs tx ++ [{| rr_tbl := rs_tbl rs; rr_key := it_key it |}])).

  (** [Close], storage/basic/basic.go:421-429. *)
  Definition sClose (idx : nat) (rs : rowset) : SM unit :=
    if rs_next rs <? 0 then spanic
    else
      let% tx := sgetTx in
      sputTx (tx_with_rows (tx_with_count tx (tx_count tx - 1)) (set_nth idx
        {| rs_tbl := rs_tbl rs; rs_cols := rs_cols rs; rs_items := rs_items rs; rs_next := -1 |}
        (tx_rows tx))).

  (** [Delete], storage/basic/basic.go:465-474. *)
  Definition sDelete (tbl : table) (key : bytes) : SM unit :=
    sforWrite ;%
    let% t := sread in
    swrite (fst (t_delete t (keyToItem (toRelationId (tb_tid tbl)) key))) ;%
    if snd (t_delete t (keyToItem (toRelationId (tb_tid tbl)) key)) then sret tt else spanic.

  (** [Update], storage/basic/basic.go:431-463. *)
  Definition sUpdate (tbl : table) (key : bytes) (cols : list Z) (vals : list value) : SM unit :=
    if negb (zlen cols =? zlen vals) then spanic
    else
      let% t := sread in
      match t_get t (keyToItem (toRelationId (tb_tid tbl)) key) with
      | None => spanic
      | Some it =>
          let% r := slift (setColumns (it_row it) cols vals) in
          sforWrite ;%
          if ColumnKeyUpdated (tt_key (tb_tt tbl)) cols then
            sDelete tbl key ;% sInsert tbl [r]
          else
            let% it' := slift (rowToItem (toRelationId (tb_tid tbl)) (tt_key (tb_tt tbl)) (Some r)) in
            let% t := sread in
            swrite (t_replace_or_insert t it')
      end.

  (** The method that a call executes, storage/basic/basic.go:139-474. *)
  Definition scall (c : txcall) : scode :=
    let done := fun _ : unit => SRet ODone in
    SGet (fun tx =>
    match c with
    | COpenTable tid tn cn ct p => sOpenTable tid tn cn ct p done
    | CCreateTable tid tn cn ct p => sCreateTable tid tn cn ct p done
    | CDropTable tid => sDropTable tid done
    | CCommit => sCommit done
    | CRollback => sRollback done
    | CNextStmt => SRet ODone
    | CInfo i => match nth_error (tx_tables tx) i with Some t => SRet (OInfo t) | None => SRet ONoObject end
    | CRows i cols mn mx p => match nth_error (tx_tables tx) i with Some t => sRows i t cols mn mx p done | None => SRet ONoObject end
    | CInsert i rs => match nth_error (tx_tables tx) i with Some t => sInsert t rs done | None => SRet ONoObject end
    | CNext i => match nth_error (tx_rows tx) i with Some rs => sNext i rs (fun r => SRet (ORow r)) | None => SRet ONoObject end
    | CCurrent i => match nth_error (tx_rows tx) i with Some rs => sCurrent rs done | None => SRet ONoObject end
    | CClose i => match nth_error (tx_rows tx) i with Some rs => sClose i rs done | None => SRet ONoObject end
    | CUpdate i cols vals =>
        match nth_error (tx_refs tx) i with
        | Some rr => match nth_error (tx_tables tx) (rr_tbl rr) with Some t => sUpdate t (rr_key rr) cols vals done | None => SRet ONoObject end
        | None => SRet ONoObject
        end
    | CDelete i =>
        match nth_error (tx_refs tx) i with
        | Some rr => match nth_error (tx_tables tx) (rr_tbl rr) with Some t => sDelete t (rr_key rr) done | None => SRet ONoObject end
        | None => SRet ONoObject
        end
    end).

  (** What an action does (storage/basic/basic.go, as at the constructors of [scode]); a
      tree is where its pointer says. *)
  Definition sact (sh : shared) (tx : txstate) (c : scode) : shared * txstate * scode :=
    match c with
    | SRet out => (sh, tx, SRet out)
    | SGet k => (sh, tx, k tx)
    | SPut tx' k =>
        (sh, {| tx_live := tx_live tx; tx_tree := tx_tree tx; tx_count := tx_count tx'; tx_tables := tx_tables tx';
                tx_rows := tx_rows tx'; tx_refs := tx_refs tx' |}, k)
    | SNil k =>
        (sh, {| tx_live := false; tx_tree := None; tx_count := tx_count tx; tx_tables := tx_tables tx;
                tx_rows := tx_rows tx; tx_refs := tx_refs tx |}, k)
    | SStoreTree k => if tx_live tx then (sh, tx, k (sh_tree sh)) else (sh, tx, SRet OPanic)
    | SSetStoreTree k =>
        match tx_live tx, tx_tree tx with
        | true, Some h => ({| sh_heap := sh_heap sh; sh_tree := h; sh_locked := sh_locked sh; sh_idt := sh_idt sh |}, tx, k)
        | _, _ => (sh, tx, SRet OPanic)
        end
    | SClone h k =>
        match tx_live tx, nth_error (sh_heap sh) h with
        | true, Some t => (sh_with_heap sh (sh_heap sh ++ [t]), tx_with_tree tx (Some (length (sh_heap sh))), k)
        | _, _ => (sh, tx, SRet OPanic)
        end
    | SRead k =>
        match tx_tree tx with
        | Some h => match nth_error (sh_heap sh) h with Some t => (sh, tx, k t) | None => (sh, tx, SRet OPanic) end
        | None => (sh, tx, SRet OPanic)
        end
    | SWrite t k =>
        match tx_tree tx with
        | Some h => (sh_with_heap sh (set_nth h t (sh_heap sh)), tx, k)
        | None => (sh, tx, SRet OPanic)
        end
    | SDecode wt k =>
        match fromWire (sh_idt sh) wt with
        | Some (idt, ty) => (sh_with_idt sh idt, tx, k ty)
        | None => (sh, tx, SRet OPanic)
        end
    | SEncode ty k => (sh, tx, k (toWire (sh_idt sh) ty))
    | SUnlock k =>
        if tx_live tx then
          ({| sh_heap := sh_heap sh; sh_tree := sh_tree sh; sh_locked := false; sh_idt := sh_idt sh |}, tx, k)
        else (sh, tx, SRet OPanic)
    end.
End Store.

(** The actions that take time: accesses to the variable of the store and to trees
    (storage/basic/basic.go:102-474). *)
Definition takesTime (c : scode) : bool :=
  match c with SStoreTree _ | SSetStoreTree _ | SClone _ _ | SRead _ | SWrite _ _ => true | _ => false end.

(** A goroutine that uses a transaction, storage/basic/basic.go:83-474: in
    [mutex.Lock()] of [Begin]; reading [st.tree] in [Begin]; between calls; in a call.
    An access that takes time has begun or not. *)
Inductive sthread : Set :=
| ThWait
| ThBegin (busy : bool)
| ThIdle (tx : txstate)
| ThCall (tx : txstate) (c : txcall) (code : scode) (busy : bool).

(** What the callers have seen: a call of [Begin] or of a method starts or
    returns.  [Begin] is storage/basic/basic.go:83-94, the methods are
    storage/basic/basic.go:96-474. *)
Inductive event : Set :=
| EStart (o : op)
| EEnd (o : op) (out : outcome).

(** The store, the transactions with the goroutines that use them, and what happened
    (storage/basic/basic.go:22-31). *)
Record sstate : Set := { ss_sh : shared; ss_threads : list (nat * sthread); ss_log : list event }.

(** The goroutine of a transaction; replacing it.  No counterpart in the
    code; the transactions are storage/basic/basic.go:28-32. *)
Fixpoint find_th (l : list (nat * sthread)) (x : nat) : option sthread :=
  match l with [] => None | (y, th) :: r => if (y =? x)%nat then Some th else find_th r x end.
Fixpoint set_th (l : list (nat * sthread)) (x : nat) (th : sthread) : list (nat * sthread) :=
  match l with [] => [] | (y, t) :: r => if (y =? x)%nat then (y, th) :: r else (y, t) :: set_th r x th end.

(** A step, storage/basic/basic.go:83-474: [Begin] is called, takes the mutex, reads the
    variable and returns; a method is called, acts, and returns; an identifier is
    registered by anybody (C71). *)
Inductive sstep {X : FloatLib} {L : CaseLib} {G : GobLib} : sstate -> sstate -> Prop :=
| ss_begin sh ths log x : find_th ths x = None ->
    sstep {| ss_sh := sh; ss_threads := ths; ss_log := log |}
      {| ss_sh := sh; ss_threads := ths ++ [(x, ThWait)]; ss_log := log ++ [EStart (Begin x)] |}
| ss_lock sh ths log x : find_th ths x = Some ThWait -> sh_locked sh = false ->
    sstep {| ss_sh := sh; ss_threads := ths; ss_log := log |}
      {| ss_sh := {| sh_heap := sh_heap sh; sh_tree := sh_tree sh; sh_locked := true; sh_idt := sh_idt sh |};
         ss_threads := set_th ths x (ThBegin false); ss_log := log |}
| ss_reads sh ths log x : find_th ths x = Some (ThBegin false) ->
    sstep {| ss_sh := sh; ss_threads := ths; ss_log := log |}
      {| ss_sh := sh; ss_threads := set_th ths x (ThBegin true); ss_log := log |}
| ss_begun sh ths log x : find_th ths x = Some (ThBegin true) ->
    sstep {| ss_sh := sh; ss_threads := ths; ss_log := log |}
      {| ss_sh := sh; ss_threads := set_th ths x (ThIdle (newTx sh)); ss_log := log ++ [EEnd (Begin x) ODone] |}
| ss_start sh ths log x tx c : find_th ths x = Some (ThIdle tx) ->
    sstep {| ss_sh := sh; ss_threads := ths; ss_log := log |}
      {| ss_sh := sh; ss_threads := set_th ths x (ThCall tx c (scall c) false); ss_log := log ++ [EStart (Call x c)] |}
| ss_access sh ths log x tx c code : find_th ths x = Some (ThCall tx c code false) -> takesTime code = true ->
    sstep {| ss_sh := sh; ss_threads := ths; ss_log := log |}
      {| ss_sh := sh; ss_threads := set_th ths x (ThCall tx c code true); ss_log := log |}
| ss_act sh ths log x tx c code sh' tx' code' : find_th ths x = Some (ThCall tx c code (takesTime code)) ->
    (forall out, code <> SRet out) -> sact sh tx code = (sh', tx', code') ->
    sstep {| ss_sh := sh; ss_threads := ths; ss_log := log |}
      {| ss_sh := sh'; ss_threads := set_th ths x (ThCall tx' c code' false); ss_log := log |}
| ss_end sh ths log x tx c out b : find_th ths x = Some (ThCall tx c (SRet out) b) ->
    sstep {| ss_sh := sh; ss_threads := ths; ss_log := log |}
      {| ss_sh := sh; ss_threads := set_th ths x (ThIdle tx); ss_log := log ++ [EEnd (Call x c) out] |}
| ss_intern sh ths log s q :
    sstep {| ss_sh := sh; ss_threads := ths; ss_log := log |}
      {| ss_sh := sh_with_idt sh (fst (ID (sh_idt sh) s q)); ss_threads := ths;
         ss_log := log ++ [EStart (Intern s q); EEnd (Intern s q) ODone] |}.

(** Any number of steps from a new store, storage/basic/basic.go:59-63. *)
Inductive sreach {X : FloatLib} {L : CaseLib} {G : GobLib} (t : idtable) : sstate -> Prop :=
| sreach_init : sreach t {| ss_sh := w_sh (newStore t); ss_threads := []; ss_log := [] |}
| sreach_step st st' : sreach t st -> sstep st st' -> sreach t st'.
