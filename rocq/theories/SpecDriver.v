(** What a test of a storage engine says of the calls it makes. *)

From Verif Require Export ModelStorageTest.

Section Driver.
  Context {X : FloatLib} {L : CaseLib} {G : GobLib} {S : SortLib}.

  Definition does (x : shared * txstate) (c : txcall) (o : outcome) (x' : shared * txstate) : Prop := callStep x c = (o, x').

  (** An outcome that was told before. *)
  Definition told (o : outcome) (fails panicked : bool) : Prop :=
    match o with
    | OPanic => panicked = true
    | OErr _ => panicked = false /\ fails = true
    | _ => panicked = false /\ fails = false
    end.
  Definition told_next (o : outcome) (r : row) (fails eof panicked : bool) : Prop :=
    match o with
    | OPanic => panicked = true
    | OErr e => panicked = false /\ (fails = true \/ eof = true /\ e = EOF)
    | ORow r' => panicked = false /\ fails = false /\ eof = false /\ CompareRows r' r = Some Eq
    | _ => False
    end.

  (** The objects a test has at hand; a new one comes behind those there are. *)
  Record hand : Type := { h_tx : bool; h_tbl : option nat; h_rows : option nat; h_ref : option nat }.
  Definition got (o : outcome) (n : nat) : option nat := match o with ODone => Some n | _ => None end.
  Definition in_use (o : outcome) : bool := match o with ODone => false | _ => true end.

  (** A table is called db.scm.tbl and its number. *)
  Definition table_named (tid : Z) (x : shared * txstate) (tn : tablename) (x' : shared * txstate) : Prop :=
    exists t1 t2 t3,
      ID (sh_idt (fst x)) (str "db") false = (t1, tn_database tn) /\ ID t1 (str "scm") false = (t2, tn_schema tn) /\
      ID t2 (str "tbl" ++ format_int tid) false = (t3, tn_table tn) /\
      x' = ({| sh_heap := sh_heap (fst x); sh_tree := sh_tree (fst x); sh_locked := sh_locked (fst x); sh_idt := t3 |}, snd x).

  (** All rows are fetched; to each, something is done. *)
  Inductive visits (rs : nat) (each : nat -> row -> shared * txstate -> shared * txstate -> Prop)
    : shared * txstate -> list row -> shared * txstate -> Prop :=
  | vi_end x x' : does x (CNext rs) (OErr EOF) x' -> visits rs each x [] x'
  | vi_row x x1 x2 x3 x' r l : does x (CNext rs) (ORow r) x1 -> does x1 (CCurrent rs) ODone x2 ->
      each (length (tx_refs (snd x1))) r x2 x3 -> visits rs each x3 l x' -> visits rs each x (r :: l) x'.
  Definition rows_read (tbl : nat) (cols : option (list Z)) (minRow maxRow : option row) (pred : option predicate)
      (each : nat -> row -> shared * txstate -> shared * txstate -> Prop) (x : shared * txstate) (l : list row) (x' : shared * txstate) : Prop :=
    exists x1 x2 o, does x (CRows tbl cols minRow maxRow pred) ODone x1 /\
      visits (length (tx_rows (snd x))) each x1 l x2 /\ does x2 (CClose (length (tx_rows (snd x)))) o x' /\ told o false false.

  (** The columns and the key of a table: without a key there is a column of its own
      in front of the others, an integer that is not null, and it is the key,
      ascending (the columns of a key are numbered from 1, negative if descending). *)
  Inductive set_up (cols : list Z) (types : list coltype) : option (list Z) -> list Z * list coltype * list Z -> Prop :=
  | su_key key : set_up cols types (Some key) (cols, types, key)
  | su_rowid rowid : idString idt_init rowid = str "__rowid" ->
      set_up cols types None (rowid :: cols, {| ct_type := Int64Type; ct_size := 8; ct_fixed := false; ct_notnull := true |} :: types, [1]).

  (** What a case says. *)
  Inductive meets : shared * txstate -> hand -> tcase -> shared * txstate -> hand -> Prop :=
  | me_open x tbl rs ref tid cols types primary panicked x1 x2 tn cols' types' primary' o :
      table_named tid x tn x1 -> set_up cols types primary (cols', types', primary') ->
      does x1 (COpenTable tid tn cols' types' primary') o x2 -> told o false panicked ->
      meets x (Build_hand true tbl rs ref) (TOpenTable tid cols types primary panicked)
        x2 (Build_hand true (got o (length (tx_tables (snd x)))) rs ref)
  | me_create x tbl rs ref tid cols types primary panicked x1 x2 tn cols' types' primary' o :
      table_named tid x tn x1 -> set_up cols types primary (cols', types', primary') ->
      does x1 (CCreateTable tid tn cols' types' (Some primary')) o x2 -> told o false panicked ->
      meets x (Build_hand true tbl rs ref) (TCreateTable tid cols types primary panicked) x2 (Build_hand true tbl rs ref)
  | me_drop x tbl rs ref tid panicked x2 o : does x (CDropTable tid) o x2 -> told o false panicked ->
      meets x (Build_hand true tbl rs ref) (TDropTable tid panicked) x2 (Build_hand true tbl rs ref)
  | me_type x tbl rs ref tid cols types key x1 x2 tn cols' types' key' t :
      does x (CInfo tbl) (OInfo t) x1 -> table_named tid x1 tn x2 -> set_up cols types key (cols', types', key') ->
      tb_tid t = tid -> tt_name (tb_tt t) = tn -> tt_cols (tb_tt t) = cols' -> tt_types (tb_tt t) = types' -> tt_key (tb_tt t) = key' ->
      meets x (Build_hand true (Some tbl) rs ref) (TTableType tid (tt_version (tb_tt t)) cols types key) x2 (Build_hand true (Some tbl) rs ref)
  | me_commit x tbl rs ref panicked x2 o : does x CCommit o x2 -> told o false panicked ->
      meets x (Build_hand true tbl rs ref) (TCommit panicked) x2 (Build_hand (in_use o) tbl rs ref)
  | me_rollback x tbl rs ref panicked x2 o : does x CRollback o x2 -> told o false panicked ->
      meets x (Build_hand true tbl rs ref) (TRollback panicked) x2 (Build_hand (in_use o) tbl rs ref)
  | me_stmt x tbl rs ref x2 o : does x CNextStmt o x2 ->
      meets x (Build_hand true tbl rs ref) TNextStmt x2 (Build_hand true tbl rs ref)
  | me_rows x tx tbl rs ref cols minRow maxRow pred fails x2 o : does x (CRows tbl cols minRow maxRow pred) o x2 -> told o fails false ->
      meets x (Build_hand tx (Some tbl) rs ref) (TRows cols minRow maxRow pred fails)
        x2 (Build_hand tx (Some tbl) (got o (length (tx_rows (snd x)))) ref)
  | me_update x tx tbl rs ref cols vals fails panicked x2 o : does x (CUpdate ref cols vals) o x2 -> told o fails panicked ->
      meets x (Build_hand tx tbl rs (Some ref)) (TUpdate cols vals fails panicked) x2 (Build_hand tx tbl rs (Some ref))
  | me_delete x tx tbl rs ref fails panicked x2 o : does x (CDelete ref) o x2 -> told o fails panicked ->
      meets x (Build_hand tx tbl rs (Some ref)) (TDelete fails panicked) x2 (Build_hand tx tbl rs (Some ref))
  | me_insert x tx tbl rs ref rows fails x2 o : does x (CInsert tbl rows) o x2 -> told o fails false ->
      meets x (Build_hand tx (Some tbl) rs ref) (TInsert rows fails) x2 (Build_hand tx (Some tbl) rs ref)
  | me_next x tx tbl rs ref r fails eof panicked x2 o : does x (CNext rs) o x2 -> told_next o r fails eof panicked ->
      meets x (Build_hand tx tbl (Some rs) ref) (TNext r fails eof panicked) x2 (Build_hand tx tbl (Some rs) ref)
  | me_current x tx tbl rs ref fails panicked x2 o : does x (CCurrent rs) o x2 -> told o fails panicked ->
      meets x (Build_hand tx tbl (Some rs) ref) (TCurrent fails panicked)
        x2 (Build_hand tx tbl (Some rs) (got o (length (tx_refs (snd x)))))
  | me_close x tx tbl rs ref fails panicked x2 o : does x (CClose rs) o x2 -> told o fails panicked ->
      meets x (Build_hand tx tbl (Some rs) ref) (TClose fails panicked) x2 (Build_hand tx tbl (Some rs) ref)
  | me_select x tx tbl rs ref cols minRow maxRow pred rows unordered l x2 :
      rows_read tbl cols minRow maxRow pred (fun _ _ y y' => y' = y) x l x2 -> RowsEqual l rows unordered = Some true ->
      meets x (Build_hand tx (Some tbl) rs ref) (TSelect cols minRow maxRow pred rows unordered) x2 (Build_hand tx (Some tbl) rs ref)
  | me_delete_from x tx tbl rs ref minRow maxRow pred l x2 :
      rows_read tbl None minRow maxRow pred (fun n _ y y' => exists o, does y (CDelete n) o y' /\ told o false false) x l x2 ->
      meets x (Build_hand tx (Some tbl) rs ref) (TDeleteFrom minRow maxRow pred) x2 (Build_hand tx (Some tbl) rs ref)
  | me_update_set x tx tbl rs ref minRow maxRow pred update l x2 :
      rows_read tbl None minRow maxRow pred
        (fun n r y y' => exists o, does y (CUpdate n (fst (update r)) (snd (update r))) o y' /\ told o false false) x l x2 ->
      meets x (Build_hand tx (Some tbl) rs ref) (TUpdateSet minRow maxRow pred update) x2 (Build_hand tx (Some tbl) rs ref).

  Inductive all_met : shared * txstate -> hand -> list tcase -> shared * txstate -> Prop :=
  | am_nil x h : all_met x h [] x
  | am_cons x h c x1 h1 l x2 : meets x h c x1 h1 -> all_met x1 h1 l x2 -> all_met x h (c :: l) x2.

  (** A test passes: nothing panics, and nothing is reported. *)
  Definition test_passes (x : shared * txstate) (l : list tcase) (x' : shared * txstate) : Prop :=
    exists s, testStorage x l = Some s /\ ts_failed s = false /\ ts_state s = x'.
  Definition empty_hand : hand := Build_hand true None None None.

  (** A case that asks for a row asks for one with columns. *)
  Definition asks (c : tcase) : Prop := match c with TNext [] false false false => False | _ => True end.
End Driver.
