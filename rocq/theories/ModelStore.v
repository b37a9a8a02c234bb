(** storage/basic: the in-memory store. *)

From Verif Require Export ModelKey ModelIdent.

(** [types.TableName], types/name.go:7-11. *)
Record tablename : Set := { tn_database : Z; tn_schema : Z; tn_table : Z }.

(** [tn != tt.Name], storage/basic/basic.go:149. *)
Definition tablename_eqb (a b : tablename) : bool :=
  (tn_database a =? tn_database b) && (tn_schema a =? tn_schema b) && (tn_table a =? tn_table b).

(** Equality of [ValueType]s, part of [slices.Equal] of column types,
    storage/basic/basic.go:156. *)
Definition valtype_eqb (a b : valtype) : bool :=
  match a, b with
  | UnknownType, UnknownType | BoolType, BoolType | StringType, StringType
  | BytesType, BytesType | Float64Type, Float64Type | Int64Type, Int64Type => true
  | _, _ => false
  end.

(** Equality of [ColumnType]s, storage/basic/basic.go:156, 189. *)
Definition coltype_eqb (a b : coltype) : bool :=
  valtype_eqb (ct_type a) (ct_type b) && (ct_size a =? ct_size b) &&
  Bool.eqb (ct_fixed a) (ct_fixed b) && Bool.eqb (ct_notnull a) (ct_notnull b).

(** [slices.Equal], storage/basic/basic.go:152, 156, 160. *)
Fixpoint list_eqb {A : Type} (eqb : A -> A -> bool) (l1 l2 : list A) : bool :=
  match l1, l2 with
  | [], [] => true
  | x :: l1', y :: l2' => eqb x y && list_eqb eqb l1' l2'
  | _, _ => false
  end.

(** [item], storage/basic/btree.go:15-19.  The row is nil only in items made to
    search the tree, where it is not looked at; it is then []. *)
Record item : Set := { it_rel : Z; it_key : bytes; it_row : row }.

(** [lessItems], storage/basic/btree.go:21-26. *)
Definition lessItems (it1 it2 : item) : bool :=
  if it_rel it1 <? it_rel it2 then true
  else (it_rel it1 =? it_rel it2) &&
       match bytes_compare (it_key it1) (it_key it2) with Lt => true | _ => false end.

(** [toRelationId], storage/basic/btree.go:28-30, for the index id 0 that all
    callers use (basic.go:92, 327, 370, 437, 459, 468). *)
Definition toRelationId (tid : Z) : Z := u64 (tid * 2 ^ 32).

(** [rowToItem], storage/basic/btree.go:32-43; [None] for the row is nil, the
    result [None] is the panic of [MakeKey]. *)
Definition rowToItem (rel : Z) (rowKey : list Z) (r : option row) : option item :=
  match r with
  | None => Some {| it_rel := rel; it_key := []; it_row := [] |}
  | Some r =>
      match MakeKey rowKey r with
      | Some k => Some {| it_rel := rel; it_key := k; it_row := r |}
      | None => None
      end
  end.

(** [keyToItem], storage/basic/btree.go:45-50. *)
Definition keyToItem (rel : Z) (key : bytes) : item :=
  {| it_rel := rel; it_key := key; it_row := [] |}.

(** The [BTreeG[item]] of github.com/google/btree made by [newBTree],
    storage/basic/btree.go:60-62, is modelled by the list of its items in
    ascending order of [lessItems]. *)
Definition tree := list item.

(** Neither is less than the other: how the B-tree recognises an item.  The
    order is [lessItems], storage/basic/btree.go:21-26. *)
Definition same_item (a b : item) : bool := negb (lessItems a b) && negb (lessItems b a).

(** [BTreeG.Get], used in storage/basic/basic.go:102, 437. *)
Fixpoint t_get (t : tree) (it : item) : option item :=
  match t with
  | [] => None
  | x :: r => if same_item x it then Some x else t_get r it
  end.

(** [BTreeG.Has], used in storage/basic/basic.go:378. *)
Definition t_has (t : tree) (it : item) : bool :=
  match t_get t it with Some _ => true | None => false end.

(** [BTreeG.ReplaceOrInsert], used in storage/basic/basic.go:130, 383, 458. *)
Fixpoint t_replace_or_insert (t : tree) (it : item) : tree :=
  match t with
  | [] => [it]
  | x :: r =>
      if lessItems it x then it :: t
      else if lessItems x it then x :: t_replace_or_insert r it
      else it :: r
  end.

(** [BTreeG.Delete], used in storage/basic/basic.go:135, 468; the boolean
    says whether the item was there. *)
Fixpoint t_delete (t : tree) (it : item) : tree * bool :=
  match t with
  | [] => ([], false)
  | x :: r =>
      if same_item x it then (r, true)
      else let '(r', ok) := t_delete r it in (x :: r', ok)
  end.

(** The items [BTreeG.AscendGreaterOrEqual] passes to its function as long as
    that returns true, used in storage/basic/basic.go:342. *)
Definition t_ascend_ge (t : tree) (pivot : item) : list item :=
  filter (fun x => negb (lessItems x pivot)) t.

(** [tableType], storage/basic/basic.go:33-39. *)
Record tabletype : Set := {
  tt_version : Z;
  tt_name : tablename;
  tt_cols : list Z;
  tt_types : list coltype;
  tt_key : list Z
}.

(** A table type as the gob encoding sees it: the identifiers as the bytes made
    by their [GobEncode], types/identifier.go:345-350. *)
Record wiretype : Set := {
  wt_version : Z;
  wt_database : bytes;
  wt_schema : bytes;
  wt_table : bytes;
  wt_cols : list bytes;
  wt_types : list coltype;
  wt_key : list Z
}.

(** encoding/gob is not modelled: [gob.NewEncoder(&buf).Encode] and
    [gob.NewDecoder(...).Decode], storage/basic/basic.go:110, 123, on the parts
    of a [tableType] other than identifiers. *)
Class GobLib : Type := {
  x_gob_encode : wiretype -> bytes;
  x_gob_decode : bytes -> option wiretype
}.

(** Encoding a table type: every identifier calls [GobEncode],
    storage/basic/basic.go:123. *)
Definition toWire (t : idtable) (tt : tabletype) : wiretype := {|
  wt_version := tt_version tt;
  wt_database := idGobEncode t (tn_database (tt_name tt));
  wt_schema := idGobEncode t (tn_schema (tt_name tt));
  wt_table := idGobEncode t (tn_table (tt_name tt));
  wt_cols := map (idGobEncode t) (tt_cols tt);
  wt_types := tt_types tt;
  wt_key := tt_key tt
|}.

(** Decoding a list of identifiers one after the other,
    storage/basic/basic.go:110. *)
Fixpoint fromWireIds {L : CaseLib} (t : idtable) (l : list bytes) : option (idtable * list Z) :=
  match l with
  | [] => Some (t, [])
  | b :: l' =>
      match idGobDecode t b with
      | None => None
      | Some (t1, id) =>
          match fromWireIds t1 l' with
          | None => None
          | Some (t2, ids) => Some (t2, id :: ids)
          end
      end
  end.

(** Decoding a table type: every identifier calls [GobDecode], which may
    register it, storage/basic/basic.go:110; [None] is an error. *)
Definition fromWire {L : CaseLib} (t : idtable) (wt : wiretype) : option (idtable * tabletype) :=
  match fromWireIds t (wt_database wt :: wt_schema wt :: wt_table wt :: wt_cols wt) with
  | Some (t', d :: s :: n :: cols) =>
      Some (t', {| tt_version := wt_version wt;
                   tt_name := {| tn_database := d; tn_schema := s; tn_table := n |};
                   tt_cols := cols;
                   tt_types := wt_types wt;
                   tt_key := wt_key wt |})
  | _ => None
  end.

(** [table], storage/basic/basic.go:41-45; the transaction is the one whose
    state holds the table. *)
Record table : Set := { tb_tid : Z; tb_tt : tabletype }.

(** [rows], storage/basic/basic.go:47-52; the table is given by its position
    in the state of the transaction; [None] for the columns is nil. *)
Record rowset : Set := {
  rs_tbl : nat;
  rs_cols : option (list Z);
  rs_items : list item;
  rs_next : Z
}.

(** [rowRef], storage/basic/basic.go:54-57. *)
Record rowref : Set := { rr_tbl : nat; rr_key : bytes }.

(** [transaction], storage/basic/basic.go:27-31: whether [st] is not nil, the
    pointer [tree] (nil is [None]), [rowsCount]; and the tables, row sets and
    row references that were obtained from it, in the order they were made. *)
Record txstate : Set := {
  tx_live : bool;
  tx_tree : option nat;
  tx_count : Z;
  tx_tables : list table;
  tx_rows : list rowset;
  tx_refs : list rowref
}.

(** [store], storage/basic/basic.go:22-25, with the trees that exist (a pointer
    to a tree is a position in this list), and the identifier table of package
    types. *)
Record shared : Set := {
  sh_heap : list tree;
  sh_tree : nat;
  sh_locked : bool;
  sh_idt : idtable
}.

(** [EngineTableId], storage/storage.go:22. *)
Definition EngineTableId : Z := 16.

(** [storage.Predicate] and the interfaces it may implement besides,
    storage/storage.go:38-60: the column and the methods that exist. *)
Record predicate : Set := {
  p_column : Z;
  p_bool : option (bool -> bool);
  p_string : option (bytes -> bool);
  p_bytes : option (bytes -> bool);
  p_float : option (Z -> bool);
  p_int : option (Z -> bool)
}.

(** [predicateFunction], storage/basic/basic.go:288-322; [None] is a failing
    type assertion, of the predicate or, in the function that is returned, of
    the value. *)
Definition predicateFunction (p : predicate) (ct : coltype) : option (value -> option bool) :=
  match ct_type ct with
  | UnknownType => None
  | BoolType =>
      match p_bool p with
      | Some f => Some (fun v => match v with VBool b => Some (f b) | _ => None end)
      | None => None
      end
  | StringType =>
      match p_string p with
      | Some f => Some (fun v => match v with VString s => Some (f s) | _ => None end)
      | None => None
      end
  | BytesType =>
      match p_bytes p with
      | Some f => Some (fun v => match v with VBytes s => Some (f s) | _ => None end)
      | None => None
      end
  | Float64Type =>
      match p_float p with
      | Some f => Some (fun v => match v with VFloat x => Some (f x) | _ => None end)
      | None => None
      end
  | Int64Type =>
      match p_int p with
      | Some f => Some (fun v => match v with VInt i => Some (f i) | _ => None end)
      | None => None
      end
  end.

(** The function passed to [AscendGreaterOrEqual] in [Rows] applied to the items
    in turn, storage/basic/basic.go:343-356; [None] is a panic. *)
Fixpoint scanItems (rel : Z) (maxItem : option item) (pred : option (Z * (value -> option bool)))
    (l : list item) : option (list item) :=
  match l with
  | [] => Some []
  | it :: r =>
      if negb (it_rel it =? rel) then Some []
      else if match maxItem with Some m => lessItems m it | None => false end then Some []
      else
        match
          match pred with
          | None => Some true
          | Some (col, f) => match znth (it_row it) col with Some v => f v | None => None end
          end
        with
        | None => None
        | Some false => scanItems rel maxItem pred r
        | Some true =>
            match scanItems rel maxItem pred r with
            | Some l' => Some (it :: l')
            | None => None
            end
        end
  end.

(** [row[idx] = rs.items[rs.next-1].row[col]] over the columns,
    storage/basic/basic.go:401-403; [None] is an index out of range. *)
Fixpoint projectRow (cols : list Z) (r : row) : option row :=
  match cols with
  | [] => Some []
  | c :: cols' =>
      match znth r c, projectRow cols' r with
      | Some v, Some r' => Some (v :: r')
      | _, _ => None
      end
  end.

(** [row[col] = val]; [None] is an index out of range,
    storage/basic/basic.go:443. *)
Definition setColumn (r : row) (col : Z) (v : value) : option row :=
  if (0 <=? col) && (col <? zlen r)
  then Some (firstn (Z.to_nat col) r ++ v :: skipn (S (Z.to_nat col)) r)
  else None.

(** The loop of [Update], storage/basic/basic.go:442-444. *)
Fixpoint setColumns (r : row) (cols : list Z) (vals : list value) : option row :=
  match cols, vals with
  | c :: cols', v :: vals' =>
      match setColumn r c v with
      | Some r' => setColumns r' cols' vals'
      | None => None
      end
  | _, _ => Some r
  end.

(** The loop of [CreateTable] over the column names,
    storage/basic/basic.go:184-193: whether some column is called ROWID without
    being the generated one. *)
Fixpoint badRowId (idx : nat) (colNames : list Z) (colTypes : list coltype) (primary : list Z) : bool :=
  match colNames with
  | [] => false
  | c :: r =>
      ((c =? ROWID) &&
       (negb (idx =? 0)%nat ||
        negb (coltype_eqb (nth 0 colTypes Int64ColType) Int64ColType) ||
        negb (list_eqb Z.eqb primary [MakeColumnKey 0 false])))
      || badRowId (S idx) r colTypes primary
  end.

(** [SetupColumns], storage/basic/basic.go:69-81; [None] for the key is nil. *)
Definition SetupColumns (colNames : list Z) (colTypes : list coltype) (primary : option (list Z))
  : list Z * list coltype * list Z :=
  match primary with
  | None => (ROWID :: colNames, Int64ColType :: colTypes, [MakeColumnKey 0 false])
  | Some p => (colNames, colTypes, p)
  end.

(** A computation over the shared state and the state of one transaction.
    On an error or panic the changes made so far remain.  The methods are
    storage/basic/basic.go:83-474. *)
Definition M (A : Type) : Type := shared * txstate -> res A * (shared * txstate).

(** Plumbing of [M]; no counterpart in the code.  Used for
    storage/basic/basic.go:83-474. *)
Definition ret {A} (a : A) : M A := fun s => (Ok a, s).
Definition fail {A} (e : error) : M A := fun s => (Err e, s).
Definition panic {A} : M A := fun s => (Panic, s).
Definition bind {A B} (m : M A) (f : A -> M B) : M B := fun s =>
  match m s with
  | (Ok a, s') => f a s'
  | (Err e, s') => (Err e, s')
  | (Panic, s') => (Panic, s')
  end.
Definition getSh : M shared := fun s => (Ok (fst s), s).
Definition getTx : M txstate := fun s => (Ok (snd s), s).
Definition putSh (sh : shared) : M unit := fun s => (Ok tt, (sh, snd s)).
Definition putTx (tx : txstate) : M unit := fun s => (Ok tt, (fst s, tx)).
Definition lift {A} (o : option A) : M A := match o with Some a => ret a | None => panic end.
Definition liftRes {A} (r : res A) : M A := fun s => (r, s).

Declare Scope m_scope.
Notation "'let!' x := m 'in' k" := (bind m (fun x => k))
  (at level 200, x name, m at level 100, k at level 200) : m_scope.
Notation "m ;; k" := (bind m (fun _ => k)) (at level 100, right associativity) : m_scope.
Open Scope m_scope.

(** Field updates; no counterpart in the code.  The fields are
    storage/basic/basic.go:23-51. *)
Definition sh_with_heap (sh : shared) (h : list tree) : shared :=
  {| sh_heap := h; sh_tree := sh_tree sh; sh_locked := sh_locked sh; sh_idt := sh_idt sh |}.
Definition sh_with_idt (sh : shared) (t : idtable) : shared :=
  {| sh_heap := sh_heap sh; sh_tree := sh_tree sh; sh_locked := sh_locked sh; sh_idt := t |}.
Definition tx_with_tree (tx : txstate) (h : option nat) : txstate :=
  {| tx_live := tx_live tx; tx_tree := h; tx_count := tx_count tx; tx_tables := tx_tables tx;
     tx_rows := tx_rows tx; tx_refs := tx_refs tx |}.
Definition tx_with_count (tx : txstate) (n : Z) : txstate :=
  {| tx_live := tx_live tx; tx_tree := tx_tree tx; tx_count := n; tx_tables := tx_tables tx;
     tx_rows := tx_rows tx; tx_refs := tx_refs tx |}.
Definition tx_with_tables (tx : txstate) (l : list table) : txstate :=
  {| tx_live := tx_live tx; tx_tree := tx_tree tx; tx_count := tx_count tx; tx_tables := l;
     tx_rows := tx_rows tx; tx_refs := tx_refs tx |}.
Definition tx_with_rows (tx : txstate) (l : list rowset) : txstate :=
  {| tx_live := tx_live tx; tx_tree := tx_tree tx; tx_count := tx_count tx; tx_tables := tx_tables tx;
     tx_rows := l; tx_refs := tx_refs tx |}.
Definition tx_with_refs (tx : txstate) (l : list rowref) : txstate :=
  {| tx_live := tx_live tx; tx_tree := tx_tree tx; tx_count := tx_count tx; tx_tables := tx_tables tx;
     tx_rows := tx_rows tx; tx_refs := l |}.

(** Replace an element of a list; no counterpart in the code.  Used for the
    objects of storage/basic/basic.go:40-57. *)
Fixpoint set_nth {A} (n : nat) (x : A) (l : list A) : list A :=
  match l, n with
  | [], _ => []
  | _ :: r, O => x :: r
  | y :: r, S n' => y :: set_nth n' x r
  end.

(** [tx.tree] where a method of the tree is called: a nil tree panics
    (storage/basic/basic.go:102, 130, 135, 342, 378, 383, 437, 458, 468). *)
Definition readTree : M tree :=
  let! sh := getSh in
  let! tx := getTx in
  match tx_tree tx with
  | None => panic
  | Some h => lift (nth_error (sh_heap sh) h)
  end.

(** A change of the tree [tx.tree] points to, in place
    (storage/basic/basic.go:130, 135, 383, 458, 468). *)
Definition writeTree (t : tree) : M unit :=
  let! sh := getSh in
  let! tx := getTx in
  match tx_tree tx with
  | None => panic
  | Some h => putSh (sh_with_heap sh (set_nth h t (sh_heap sh)))
  end.

(** [forWrite], storage/basic/basic.go:258-262: [tx.st] is nil in a completed
    transaction; [Clone] makes a new tree with the same contents. *)
Definition forWrite : M unit :=
  let! sh := getSh in
  let! tx := getTx in
  if negb (tx_live tx) then panic
  else if match tx_tree tx with Some h => (h =? sh_tree sh)%nat | None => false end then
    let! t := lift (nth_error (sh_heap sh) (sh_tree sh)) in
    putSh (sh_with_heap sh (sh_heap sh ++ [t])) ;;
    putTx (tx_with_tree tx (Some (length (sh_heap sh))))
  else ret tt.

(** [tableTypesRelation] and [tableTypesKey], storage/basic/basic.go:91-94. *)
Definition tableTypesRelation : Z := toRelationId 0.
Definition tableTypesKey : list Z := [MakeColumnKey 0 false].

Section Store.
  Context {X : FloatLib} {L : CaseLib} {G : GobLib}.

  (** [getTableType], storage/basic/basic.go:100-119; [None] is nil. *)
  Definition getTableType (tid : Z) : M (option tabletype) :=
    let! it := lift (rowToItem tableTypesRelation tableTypesKey (Some [VInt tid])) in
    let! t := readTree in
    match t_get t it with
    | None => ret None
    | Some it =>
        match it_row it with
        | [_; VBytes b] =>
            match x_gob_decode b with
            | None => panic
            | Some wt =>
                let! sh := getSh in
                match fromWire (sh_idt sh) wt with
                | None => panic
                | Some (idt, ty) => putSh (sh_with_idt sh idt) ;; ret (Some ty)
                end
            end
        | _ => panic
        end
    end.

  (** [setTableType], storage/basic/basic.go:121-131; encoding does not fail. *)
  Definition setTableType (tid : Z) (tt : tabletype) : M unit :=
    let! sh := getSh in
    let b := x_gob_encode (toWire (sh_idt sh) tt) in
    let! it := lift (rowToItem tableTypesRelation tableTypesKey (Some [VInt tid; VBytes b])) in
    let! t := readTree in
    writeTree (t_replace_or_insert t it).

  (** [deleteTableType], storage/basic/basic.go:133-137. *)
  Definition deleteTableType (tid : Z) : M bool :=
    let! it := lift (rowToItem tableTypesRelation tableTypesKey (Some [VInt tid])) in
    let! t := readTree in
    let '(t', ok) := t_delete t it in
    writeTree t' ;; ret ok.

  (** [OpenTable], storage/basic/basic.go:139-169. *)
  Definition OpenTable (tid : Z) (tn : tablename) (colNames : list Z) (colTypes : list coltype)
      (primary : list Z) : M unit :=
    let! ott := getTableType tid in
    match ott with
    | None => panic
    | Some ty =>
        if negb (tablename_eqb tn (tt_name ty)) then panic
        else if negb (list_eqb Z.eqb colNames (tt_cols ty)) then panic
        else if negb (list_eqb coltype_eqb colTypes (tt_types ty)) then panic
        else if negb (list_eqb Z.eqb primary (tt_key ty)) then panic
        else
          let! tx := getTx in
          putTx (tx_with_tables tx (tx_tables tx ++ [{| tb_tid := tid; tb_tt := ty |}]))
    end.

  (** [CreateTable], storage/basic/basic.go:171-211; [None] for the key is
      nil. *)
  Definition CreateTable (tid : Z) (tn : tablename) (colNames : list Z) (colTypes : list coltype)
      (primary : option (list Z)) : M unit :=
    if tid <? EngineTableId then panic
    else
      let! ott := getTableType tid in
      match ott with
      | Some _ => panic
      | None =>
          if negb (zlen colNames =? zlen colTypes) then panic
          else
            match primary with
            | None => panic
            | Some primary =>
                if badRowId 0 colNames colTypes primary then fail ErrRowIdColumn
                else if existsb (fun ck => zlen colNames <=? ckColumn ck) primary then panic
                else
                  forWrite ;;
                  setTableType tid {| tt_version := 1; tt_name := tn; tt_cols := colNames;
                                      tt_types := colTypes; tt_key := primary |}
            end
      end.

  (** [DropTable], storage/basic/basic.go:213-225. *)
  Definition DropTable (tid : Z) : M unit :=
    let! ott := getTableType tid in
    match ott with
    | None => panic
    | Some _ =>
        forWrite ;;
        let! ok := deleteTableType tid in
        if ok then ret tt else panic
    end.

  (** What is common to [Commit] and [Rollback]: [tx.st.mutex.Unlock()],
      [tx.st = nil], [tx.tree = nil], storage/basic/basic.go:235-237 and
      247-249, leaving the store with the given tree. *)
  Definition complete (newTree : nat) : M unit :=
    let! sh := getSh in
    let! tx := getTx in
    putSh {| sh_heap := sh_heap sh; sh_tree := newTree; sh_locked := false; sh_idt := sh_idt sh |} ;;
    putTx {| tx_live := false; tx_tree := None; tx_count := tx_count tx; tx_tables := tx_tables tx;
             tx_rows := tx_rows tx; tx_refs := tx_refs tx |}.

  (** [Commit], storage/basic/basic.go:227-239. *)
  Definition Commit : M unit :=
    let! tx := getTx in
    if negb (tx_live tx) then fail ErrTxCompleted
    else if negb (tx_count tx =? 0) then panic
    else
      match tx_tree tx with
      | Some h => complete h
      | None => panic
      end.

  (** [Rollback], storage/basic/basic.go:241-252. *)
  Definition Rollback : M unit :=
    let! tx := getTx in
    if negb (tx_live tx) then fail ErrTxCompleted
    else if negb (tx_count tx =? 0) then panic
    else let! sh := getSh in complete (sh_tree sh).

  (** [Rows], storage/basic/basic.go:324-365. *)
  Definition Rows (tblIdx : nat) (tbl : table) (cols : option (list Z)) (minRow maxRow : option row)
      (pred : option predicate) : M unit :=
    let rel := toRelationId (tb_tid tbl) in
    let key := tt_key (tb_tt tbl) in
    let! maxItem :=
      match maxRow with
      | None => ret None
      | Some _ => let! it := lift (rowToItem rel key maxRow) in ret (Some it)
      end in
    let! predFn :=
      match pred with
      | None => ret None
      | Some p =>
          let! ct := lift (znth (tt_types (tb_tt tbl)) (p_column p)) in
          let! f := lift (predicateFunction p ct) in
          ret (Some (p_column p, f))
      end in
    let! minItem := lift (rowToItem rel key minRow) in
    let! t := readTree in
    let! items := lift (scanItems rel maxItem predFn (t_ascend_ge t minItem)) in
    let! tx := getTx in
    putTx (tx_with_rows (tx_with_count tx (tx_count tx + 1))
             (tx_rows tx ++ [{| rs_tbl := tblIdx; rs_cols := cols; rs_items := items; rs_next := 0 |}])).

  (** The loop of [Insert], storage/basic/basic.go:371-384. *)
  Fixpoint insertRows (tbl : table) (rs : list row) : M unit :=
    match rs with
    | [] => ret tt
    | r :: rs' =>
        let! r := liftRes (ConvertRow (tt_types (tb_tt tbl)) r) in
        let! it := lift (rowToItem (toRelationId (tb_tid tbl)) (tt_key (tb_tt tbl)) (Some r)) in
        let! t := readTree in
        if t_has t it then fail ErrDuplicateKey
        else
          writeTree (t_replace_or_insert t it) ;;
          insertRows tbl rs'
    end.

  (** [Insert], storage/basic/basic.go:367-387. *)
  Definition Insert (tbl : table) (rs : list row) : M unit :=
    forWrite ;; insertRows tbl rs.

  (** [Next], storage/basic/basic.go:389-408. *)
  Definition Next (idx : nat) (rs : rowset) : M row :=
    if rs_next rs <? 0 then panic
    else if rs_next rs =? zlen (rs_items rs) then fail EOF
    else
      let! it := lift (znth (rs_items rs) (rs_next rs)) in
      let! tx := getTx in
      putTx (tx_with_rows tx (set_nth idx
        {| rs_tbl := rs_tbl rs; rs_cols := rs_cols rs; rs_items := rs_items rs;
           rs_next := rs_next rs + 1 |} (tx_rows tx))) ;;
      match rs_cols rs with
      | Some cols => lift (projectRow cols (it_row it))
      | None => ret (it_row it)
      end.

  (** [Current], storage/basic/basic.go:410-419. *)
  Definition Current (rs : rowset) : M unit :=
    if rs_next rs <=? 0 then panic
    else
      let! it := lift (znth (rs_items rs) (rs_next rs - 1)) in
      let! tx := getTx in
      putTx (tx_with_refs tx (tx_refs tx ++ [{| rr_tbl := rs_tbl rs; rr_key := it_key it |}])).

  (** [Close], storage/basic/basic.go:421-429. *)
  Definition Close (idx : nat) (rs : rowset) : M unit :=
    if rs_next rs <? 0 then panic
    else
      let! tx := getTx in
      putTx (tx_with_rows (tx_with_count tx (tx_count tx - 1)) (set_nth idx
        {| rs_tbl := rs_tbl rs; rs_cols := rs_cols rs; rs_items := rs_items rs; rs_next := -1 |}
        (tx_rows tx))).

  (** [Delete], storage/basic/basic.go:465-474. *)
  Definition Delete (tbl : table) (key : bytes) : M unit :=
    forWrite ;;
    let! t := readTree in
    let '(t', ok) := t_delete t (keyToItem (toRelationId (tb_tid tbl)) key) in
    writeTree t' ;;
    if ok then ret tt else panic.

  (** [Update], storage/basic/basic.go:431-463. *)
  Definition Update (tbl : table) (key : bytes) (cols : list Z) (vals : list value) : M unit :=
    if negb (zlen cols =? zlen vals) then panic
    else
      let! t := readTree in
      match t_get t (keyToItem (toRelationId (tb_tid tbl)) key) with
      | None => panic
      | Some it =>
          let! r := lift (setColumns (it_row it) cols vals) in
          forWrite ;;
          if ColumnKeyUpdated (tt_key (tb_tt tbl)) cols then
            Delete tbl key ;; Insert tbl [r]
          else
            let! it' := lift (rowToItem (toRelationId (tb_tid tbl)) (tt_key (tb_tt tbl)) (Some r)) in
            let! t := readTree in
            writeTree (t_replace_or_insert t it')
      end.
End Store.

(** A call of a method of a transaction, or of a table, row set or row
    reference obtained from it, with its arguments other than the context:
    the interfaces of storage/storage.go:25-36, 62-88. *)
Inductive txcall : Set :=
  | COpenTable (tid : Z) (tn : tablename) (colNames : list Z) (colTypes : list coltype) (primary : list Z)
  | CCreateTable (tid : Z) (tn : tablename) (colNames : list Z) (colTypes : list coltype)
      (primary : option (list Z))
  | CDropTable (tid : Z)
  | CCommit
  | CRollback
  | CNextStmt
  | CInfo (tbl : nat)      (* TID, Name, Version, ColumnNames, ColumnTypes, Key *)
  | CRows (tbl : nat) (cols : option (list Z)) (minRow maxRow : option row) (pred : option predicate)
  | CInsert (tbl : nat) (rs : list row)
  | CNext (rs : nat)
  | CCurrent (rs : nat)
  | CClose (rs : nat)
  | CUpdate (ref : nat) (cols : list Z) (vals : list value)
  | CDelete (ref : nat).

(** What the caller sees.  The results of the methods of
    storage/storage.go:25-88. *)
Inductive outcome : Set :=
  | ODone                  (* returned without error *)
  | ORow (r : row)         (* a row from Next *)
  | OInfo (t : table)      (* the attributes of a table *)
  | OErr (e : error)       (* returned an error *)
  | OPanic                 (* panicked *)
  | OBlocked               (* waits for the lock; nothing has happened *)
  | ONoObject.             (* there is no such object: not a call *)

(** The result of a computation as the caller sees it.  The methods are
    those of storage/storage.go:25-88. *)
Definition outcome_of {A} (f : A -> outcome) (r : res A) : outcome :=
  match r with Ok a => f a | Err e => OErr e | Panic => OPanic end.

(** Run a computation on the state of a transaction.  The methods are those
    of storage/basic/basic.go:83-474. *)
Definition runM {A} (f : A -> outcome) (m : M A) (s : shared * txstate)
  : outcome * (shared * txstate) :=
  let '(r, s') := m s in (outcome_of f r, s').

(** The method that a call executes, storage/basic/basic.go:139-474. *)
Definition callStep {X : FloatLib} {L : CaseLib} {G : GobLib} (s : shared * txstate) (c : txcall)
  : outcome * (shared * txstate) :=
  let tx := snd s in
  let done := fun _ : unit => ODone in
  match c with
  | COpenTable tid tn cn ct p => runM done (OpenTable tid tn cn ct p) s
  | CCreateTable tid tn cn ct p => runM done (CreateTable tid tn cn ct p) s
  | CDropTable tid => runM done (DropTable tid) s
  | CCommit => runM done Commit s
  | CRollback => runM done Rollback s
  | CNextStmt => (ODone, s)
  | CInfo i =>
      match nth_error (tx_tables tx) i with
      | Some t => (OInfo t, s)
      | None => (ONoObject, s)
      end
  | CRows i cols mn mx p =>
      match nth_error (tx_tables tx) i with
      | Some t => runM done (Rows i t cols mn mx p) s
      | None => (ONoObject, s)
      end
  | CInsert i rs =>
      match nth_error (tx_tables tx) i with
      | Some t => runM done (Insert t rs) s
      | None => (ONoObject, s)
      end
  | CNext i =>
      match nth_error (tx_rows tx) i with
      | Some rs => runM ORow (Next i rs) s
      | None => (ONoObject, s)
      end
  | CCurrent i =>
      match nth_error (tx_rows tx) i with
      | Some rs => runM done (Current rs) s
      | None => (ONoObject, s)
      end
  | CClose i =>
      match nth_error (tx_rows tx) i with
      | Some rs => runM done (Close i rs) s
      | None => (ONoObject, s)
      end
  | CUpdate i cols vals =>
      match nth_error (tx_refs tx) i with
      | Some rr =>
          match nth_error (tx_tables tx) (rr_tbl rr) with
          | Some t => runM done (Update t (rr_key rr) cols vals) s
          | None => (ONoObject, s)
          end
      | None => (ONoObject, s)
      end
  | CDelete i =>
      match nth_error (tx_refs tx) i with
      | Some rr =>
          match nth_error (tx_tables tx) (rr_tbl rr) with
          | Some t => runM done (Delete t (rr_key rr)) s
          | None => (ONoObject, s)
          end
      | None => (ONoObject, s)
      end
  end.

(** A store and all transactions begun on it.  Callers name the transactions
    they begin; a name is used once.  [store] and [transaction],
    storage/basic/basic.go:23-32. *)
Record world : Set := { w_sh : shared; w_txs : list (nat * txstate) }.

(** The transaction with a name.  No counterpart in the code; a client holds
    the pointer that [Begin] returned, storage/basic/basic.go:83-94. *)
Fixpoint find_tx (l : list (nat * txstate)) (x : nat) : option txstate :=
  match l with
  | [] => None
  | (y, tx) :: r => if (y =? x)%nat then Some tx else find_tx r x
  end.

(** Replace the state of a transaction.  No counterpart in the code; a
    method changes what its receiver points to,
    storage/basic/basic.go:28-32. *)
Fixpoint set_tx (l : list (nat * txstate)) (x : nat) (tx : txstate) : list (nat * txstate) :=
  match l with
  | [] => []
  | (y, t) :: r => if (y =? x)%nat then (y, tx) :: r else (y, t) :: set_tx r x tx
  end.

(** What clients can do: begin a transaction under a new name, call a
    method, or register an identifier (anybody may call [types.ID] at any
    time).  The methods are storage/storage.go:12-88, [types.ID] is
    types/identifier.go:301-317. *)
Inductive op : Set :=
  | Begin (x : nat)
  | Call (x : nat) (c : txcall)
  | Intern (s : bytes) (quoted : bool).

(** A fresh transaction, storage/basic/basic.go:83-89. *)
Definition newTx (sh : shared) : txstate :=
  {| tx_live := true; tx_tree := Some (sh_tree sh); tx_count := 0; tx_tables := []; tx_rows := [];
     tx_refs := [] |}.

(** One step.  [Begin], storage/basic/basic.go:83-89, waits while the mutex is
    locked. *)
Definition step {X : FloatLib} {L : CaseLib} {G : GobLib} (w : world) (o : op) : outcome * world :=
  let sh := w_sh w in
  match o with
  | Begin x =>
      match find_tx (w_txs w) x with
      | Some _ => (ONoObject, w)
      | None =>
          if sh_locked sh then (OBlocked, w)
          else (ODone,
                {| w_sh := {| sh_heap := sh_heap sh; sh_tree := sh_tree sh; sh_locked := true;
                              sh_idt := sh_idt sh |};
                   w_txs := w_txs w ++ [(x, newTx sh)] |})
      end
  | Call x c =>
      match find_tx (w_txs w) x with
      | None => (ONoObject, w)
      | Some tx =>
          let '(out, (sh', tx')) := callStep (sh, tx) c in
          (out, {| w_sh := sh'; w_txs := set_tx (w_txs w) x tx' |})
      end
  | Intern s q =>
      (ODone, {| w_sh := sh_with_idt sh (fst (ID (sh_idt sh) s q)); w_txs := w_txs w |})
  end.

(** [NewStore], storage/basic/basic.go:59-63, with the identifiers known at
    that time. *)
Definition newStore (t : idtable) : world :=
  {| w_sh := {| sh_heap := [[]]; sh_tree := 0; sh_locked := false; sh_idt := t |}; w_txs := [] |}.

(** A sequence of steps.  No counterpart in the code; the callers of
    storage/storage.go:12-88. *)
Fixpoint run {X : FloatLib} {L : CaseLib} {G : GobLib} (w : world) (ops : list op)
  : list outcome * world :=
  match ops with
  | [] => ([], w)
  | o :: ops' =>
      let '(out, w1) := step w o in
      let '(outs, w2) := run w1 ops' in
      (out :: outs, w2)
  end.
