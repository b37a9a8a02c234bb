(** Specification of the catalogue: sets of names and a map from names to
    tables, and transactions on them. *)

From Verif Require Export ModelEngine SpecTyped.

(** What is assumed of encoding/gob: decoding gives what was encoded. *)
Definition EGobLib_ok (E : EGobLib) : Prop := forall wt, x_egob_decode (x_egob_encode wt) = Some wt.

(** What is assumed of package unicode: which ASCII letters are upper case, and
    their lower case. *)
Definition RuneLib_ascii (U : RuneLib) : Prop :=
  forall r, 0 <= r < 128 ->
    x_is_upper r = ((65 <=? r) && (r <=? 90)) /\
    x_rune_lower r = (if (65 <=? r) && (r <=? 90) then r + 32 else r).

(** What is assumed of all libraries. *)
Definition libraries (X : FloatLib) (G : GobLib) (L : CaseLib) (F : Float32Lib) (E : EGobLib) : Prop :=
  FloatLib_ok X /\ GobLib_ok G /\ CaseLib_ok L /\ Float32Lib_ok F /\ EGobLib_ok E.

(** What is recorded of a table: the spellings of its columns, whether they are
    reserved words, the types and the key. *)
Record tabledef : Set := {
  td_cols : list (bool * bytes);
  td_types : list coltype;
  td_key : list Z
}.

(** The catalogue. *)
Record catalogue : Set := {
  c_databases : list bytes;
  c_schemas : list (bytes * bytes);
  c_tables : list ((bytes * bytes * bytes) * (Z * tabledef));
  c_next : Z
}.

(** Names that fit in a column of a system table. *)
Definition fits (n : bytes) : bool := zlen n <=? 128.

(** Comparing names. *)
Definition schema_eqb (a b : bytes * bytes) : bool := bytes_eqb (fst a) (fst b) && bytes_eqb (snd a) (snd b).
Definition table_eqb (a b : bytes * bytes * bytes) : bool := schema_eqb (fst a) (fst b) && bytes_eqb (snd a) (snd b).

(** Looking up and removing names. *)
Definition has {A} (eqb : A -> A -> bool) (l : list A) (a : A) : bool := existsb (eqb a) l.
Definition without {A} (eqb : A -> A -> bool) (l : list A) (a : A) : list A := filter (fun b => negb (eqb a b)) l.
Definition find_table (l : list ((bytes * bytes * bytes) * (Z * tabledef))) (n : bytes * bytes * bytes) : option (Z * tabledef) :=
  match find (fun e => table_eqb n (fst e)) l with Some e => Some (snd e) | None => None end.

(** Changing one part. *)
Definition with_databases (c : catalogue) (l : list bytes) : catalogue :=
  {| c_databases := l; c_schemas := c_schemas c; c_tables := c_tables c; c_next := c_next c |}.
Definition with_schemas (c : catalogue) (l : list (bytes * bytes)) : catalogue :=
  {| c_databases := c_databases c; c_schemas := l; c_tables := c_tables c; c_next := c_next c |}.
Definition with_tables (c : catalogue) (l : list ((bytes * bytes * bytes) * (Z * tabledef))) : catalogue :=
  {| c_databases := c_databases c; c_schemas := c_schemas c; c_tables := l; c_next := c_next c |}.
Definition with_next (c : catalogue) (n : Z) : catalogue :=
  {| c_databases := c_databases c; c_schemas := c_schemas c; c_tables := c_tables c; c_next := n |}.

(** Calls with names. *)
Inductive ncall : Set :=
  | NCreateDatabase (d : bytes) (options : bool)
  | NDropDatabase (d : bytes) (ifExists : bool)
  | NListDatabases
  | NBegin
  | NCommit (k : nat)
  | NRollback (k : nat)
  | NCreateSchema (k : nat) (d s : bytes)
  | NDropSchema (k : nat) (d s : bytes) (ifExists : bool)
  | NListSchemas (k : nat) (d : bytes)
  | NOpenTable (k : nat) (d s n : bytes)
  | NCreateTable (k : nat) (d s n : bytes) (td : tabledef)
  | NNothing (k : nat)
  | NListTables (k : nat)
  | NOther.

(** Results. *)
Inductive nout : Set :=
  | NDone
  | NErr (e : error)
  | NPanic
  | NBlocked
  | NNoObject
  | NNames (l : list bytes)
  | NTable (id : Z) (td : tabledef).

Section Catalogue.
  Context {E : EGobLib}.

  (** How a table is stored. *)
  Definition wire_of (td : tabledef) : ewiretype := {|
    ewt_version := 1;
    ewt_cols := map (fun c : bool * bytes => (if fst c then x01 else x00) :: snd c) (td_cols td);
    ewt_types := td_types td;
    ewt_key := td_key td
  |}.

  (** The definition fits in the column for it. *)
  Definition def_fits (td : tabledef) : bool := zlen (x_egob_encode (wire_of td)) <=? 8192.

  (** Creating and dropping databases. *)
  Definition create_database (d : bytes) (c : catalogue) : nout * catalogue :=
    if negb (fits d) then (NPanic, c)
    else if has bytes_eqb (c_databases c) d then (NErr ErrDuplicateKey, c)
    else (NDone, with_databases c (d :: c_databases c)).
  Definition drop_database (d : bytes) (ifExists : bool) (c : catalogue) : nout * catalogue :=
    if negb (fits d) then (NPanic, c)
    else if has bytes_eqb (c_databases c) d then (NDone, with_databases c (without bytes_eqb (c_databases c) d))
    else if ifExists then (NDone, c) else (NErr ErrNoDatabase, c).

  (** Creating, dropping and listing schemas. *)
  Definition create_schema (d s : bytes) (c : catalogue) : nout * catalogue :=
    if negb (fits d) then (NPanic, c)
    else if negb (has bytes_eqb (c_databases c) d) then (NErr ErrNoDatabase, c)
    else if negb (fits s) then (NPanic, c)
    else if has schema_eqb (c_schemas c) (d, s) then (NErr ErrDuplicateKey, c)
    else (NDone, with_schemas c ((d, s) :: c_schemas c)).
  Definition drop_schema (d s : bytes) (ifExists : bool) (c : catalogue) : nout * catalogue :=
    if negb (fits d && fits s) then (NPanic, c)
    else if has schema_eqb (c_schemas c) (d, s) then (NDone, with_schemas c (without schema_eqb (c_schemas c) (d, s)))
    else if ifExists then (NDone, c) else (NErr ErrNoSchema, c).
  Definition list_schemas (d : bytes) (c : catalogue) : nout * catalogue :=
    if negb (fits d) then (NPanic, c)
    else if negb (has bytes_eqb (c_databases c) d) then (NErr ErrNoDatabase, c)
    else (NNames (map snd (filter (fun e => bytes_eqb (fst e) d) (c_schemas c))), c).

  (** Opening and creating tables: the number for the table is used up even if it
      is not created. *)
  Definition open_table (d s n : bytes) (c : catalogue) : nout * catalogue :=
    if negb (fits d && fits s && fits n) then (NPanic, c)
    else
      match find_table (c_tables c) (d, s, n) with
      | Some (id, td) => (NTable id td, c)
      | None => (NErr ErrNoTable, c)
      end.
  Definition create_table (d s n : bytes) (td : tabledef) (c : catalogue) : nout * catalogue :=
    if negb (fits d && fits s) then (NPanic, c)
    else if negb (has schema_eqb (c_schemas c) (d, s)) then (NErr ErrNoSchema, c)
    else
      let c' := with_next c (i64 (c_next c + 1)) in
      if negb (fits n && def_fits td) then (NPanic, c')
      else if has table_eqb (map fst (c_tables c)) (d, s, n) then (NErr ErrDuplicateKey, c')
      else (NDone, with_tables c' (((d, s, n), (c_next c, td)) :: c_tables c)).

  (** The committed catalogue; the open transaction, if any, with its catalogue:
      that with a number, or one that nobody can complete; and how many
      transactions were begun. *)
  Record machine : Set := {
    m_cat : catalogue;
    m_cur : option (option nat * catalogue);
    m_count : nat
  }.

  (** What needs a transaction of its own: waits for the open one; what is done
      is committed if there was no error; a panic leaves the transaction
      open. *)
  Definition alone (m : machine) (f : catalogue -> nout * catalogue) : nout * machine :=
    match m_cur m with
    | Some _ => (NBlocked, m)
    | None =>
        match f (m_cat m) with
        | (NErr e, _) => (NErr e, m)
        | (NPanic, c) => (NPanic, {| m_cat := m_cat m; m_cur := Some (None, c); m_count := m_count m |})
        | (out, c) => (out, {| m_cat := c; m_cur := None; m_count := m_count m |})
        end
    end.

  (** What is done in a transaction: panics if it is completed. *)
  Definition within (m : machine) (k : nat) (f : catalogue -> nout * catalogue) : nout * machine :=
    if (k <? m_count m)%nat then
      match m_cur m with
      | Some (Some j, c) =>
          if (j =? k)%nat then
            (fst (f c), {| m_cat := m_cat m; m_cur := Some (Some k, snd (f c)); m_count := m_count m |})
          else (NPanic, m)
      | _ => (NPanic, m)
      end
    else (NNoObject, m).

  (** Completing a transaction. *)
  Definition complete_with (m : machine) (k : nat) (f : catalogue -> catalogue) : nout * machine :=
    if (k <? m_count m)%nat then
      match m_cur m with
      | Some (Some j, c) =>
          if (j =? k)%nat then (NDone, {| m_cat := f c; m_cur := None; m_count := m_count m |})
          else (NErr ErrTxCompleted, m)
      | _ => (NErr ErrTxCompleted, m)
      end
    else (NNoObject, m).

  (** One call. *)
  Definition mstep (m : machine) (c : ncall) : nout * machine :=
    match c with
    | NCreateDatabase d opts => if opts then (NErr ErrOption, m) else alone m (create_database d)
    | NDropDatabase d ifx => alone m (drop_database d ifx)
    | NListDatabases => alone m (fun c => (NNames (c_databases c), c))
    | NBegin =>
        match m_cur m with
        | Some _ => (NBlocked, m)
        | None => (NDone, {| m_cat := m_cat m; m_cur := Some (Some (m_count m), m_cat m); m_count := S (m_count m) |})
        end
    | NCommit k => complete_with m k (fun c => c)
    | NRollback k => complete_with m k (fun _ => m_cat m)
    | NCreateSchema k d s => within m k (create_schema d s)
    | NDropSchema k d s ifx => within m k (drop_schema d s ifx)
    | NListSchemas k d => within m k (list_schemas d)
    | NOpenTable k d s n => within m k (open_table d s n)
    | NCreateTable k d s n td => within m k (create_table d s n td)
    | NNothing k => ((if (k <? m_count m)%nat then NDone else NNoObject), m)
    | NListTables k => ((if (k <? m_count m)%nat then NNames [] else NNoObject), m)
    | NOther => (NDone, m)
    end.

  (** How the catalogue is stored in four tables; the names fit. *)
  Record holds (t : tree) (c : catalogue) : Prop := {
    ho_fits : Forall (fun n => fits n = true) (c_databases c ++ map fst (c_schemas c) ++ map snd (c_schemas c));
    ho_sequences : rows_in t 16 = [[VString (str "next_table_id"); VInt (c_next c)]];
    ho_databases : Permutation (rows_in t 17) (map (fun d => [VString d]) (c_databases c));
    ho_schemas : Permutation (rows_in t 18) (map (fun e => [VString (fst e); VString (snd e)]) (c_schemas c));
    ho_tables : Permutation (rows_in t 19)
      (map (fun e : (bytes * bytes * bytes) * (Z * tabledef) =>
        let '((d, s, n), (id, td)) := e in
        [VString d; VString s; VString n; VInt id; VBytes (x_egob_encode (wire_of td))]) (c_tables c))
  }.

  (** The state of the machine in a state of the engine. *)
  Record represents (s : eworld) (m : machine) : Prop := {
    rp_committed : holds (committed (e_w s)) (m_cat m);
    rp_count : length (e_txs s) = m_count m;
    rp_current :
      match m_cur m with
      | None =>
          (forall x, ~ active (e_w s) x) /\ (forall k x, nth_error (e_txs s) k <> Some (Some x))
      | Some (o, c) =>
          exists x t, view (e_w s) x = Some t /\ holds t c /\
            forall k y, nth_error (e_txs s) k = Some (Some y) <-> o = Some k /\ y = x
      end
  }.
End Catalogue.

(** The identifiers known in a state. *)
Definition e_idt (s : eworld) : idtable := sh_idt (w_sh (e_w s)).

(** The definition of a table with these columns. *)
Definition def_of (t : idtable) (cols : list Z) (types : list coltype) (key : list Z) : tabledef :=
  {| td_cols := map (fun i => (IsReserved i, idString t i)) cols; td_types := types; td_key := key |}.

(** The names in a call. *)
Definition named (t : idtable) (c : ecall) : ncall :=
  let n := idString t in
  match c with
  | ECreateDatabase dn opts => NCreateDatabase (n dn) (match opts with [] => false | _ => true end)
  | EDropDatabase dn ifx => NDropDatabase (n dn) ifx
  | EListDatabases => NListDatabases
  | EBegin => NBegin
  | ECommit k => NCommit k
  | ERollback k => NRollback k
  | ECreateSchema k dn sn => NCreateSchema k (n dn) (n sn)
  | EDropSchema k dn sn ifx => NDropSchema k (n dn) (n sn) ifx
  | EListSchemas k dn => NListSchemas k (n dn)
  | EOpenTable k tn => NOpenTable k (n (tn_database tn)) (n (tn_schema tn)) (n (tn_table tn))
  | ECreateTable k tn cn ct p =>
      NCreateTable k (n (tn_database tn)) (n (tn_schema tn)) (n (tn_table tn)) (def_of t cn ct p)
  | EDropTable k _ | ECreateIndex k _ _ _ | EDropIndex k _ _ => NNothing k
  | EListTables k _ _ => NListTables k
  | EIntern _ _ => NOther
  end.

(** Identifiers that exist. *)
Definition known_id (t : idtable) (i : Z) : Prop := exists n, In (i, n) (idt_names t).
Definition known_call (t : idtable) (c : ecall) : Prop :=
  match c with
  | ECreateDatabase dn _ | EDropDatabase dn _ => known_id t dn
  | EListSchemas _ dn => known_id t dn
  | ECreateSchema _ dn sn | EDropSchema _ dn sn _ => known_id t dn /\ known_id t sn
  | EOpenTable _ tn => known_id t (tn_database tn) /\ known_id t (tn_schema tn) /\ known_id t (tn_table tn)
  | ECreateTable _ tn cn _ _ =>
      known_id t (tn_database tn) /\ known_id t (tn_schema tn) /\ known_id t (tn_table tn) /\ Forall (known_id t) cn
  | _ => True
  end.

(** A result is what it should be, with the identifiers known afterwards: a list
    of names comes in ascending order; the columns of a table are the
    identifiers for what is recorded, and its number has 32 bits. *)
Definition agrees {L : CaseLib} (t : idtable) (out : eout) (n : nout) : Prop :=
  match n with
  | NDone => out = EDone
  | NErr e => out = EErr e
  | NPanic => out = EPanic
  | NBlocked => out = EBlocked
  | NNoObject => out = ENoObject
  | NNames l =>
      exists ids, out = ENames ids /\ Permutation (map (idString t) ids) l /\
        StronglySorted (fun a b => bytes_compare a b = Lt) (map (idString t) ids)
  | NTable id td =>
      exists cols, out = ETable (id mod 2 ^ 32)
          {| ett_version := 1; ett_cols := cols; ett_types := td_types td; ett_key := td_key td |} /\
        Forall2 (fun (c : bool * bytes) i => ID t (snd c) (negb (fst c)) = (t, i)) (td_cols td) cols
  end.

Section Reach.
  Context {F : Float32Lib} {X : FloatLib} {L : CaseLib} {G : GobLib} {E : EGobLib}.

  (** The package was initialised with identifiers registered before, others were
      registered, and the store was initialised. *)
  Definition booted (I : einfos) (s : eworld) : Prop :=
    exists (U : RuneLib) t ths w lg ids,
      RuneLib_ascii U /\ idreach (t, ths) /\ exec (newStore t) 0 makeInfos = (Ok I, w, lg) /\ Forall is_intern ids /\
      Init I {| e_w := snd (run w ids); e_next := 0; e_txs := [] |} = (EDone, s).

  (** States after calls with identifiers that exist, so many of them
      CreateTable. *)
  Inductive ereach (I : einfos) : nat -> eworld -> Prop :=
    | er_booted s : booted I s -> ereach I O s
    | er_call n s c out s' :
        ereach I n s -> known_call (e_idt s) c -> estep I s c = (out, s') ->
        ereach I (match c with ECreateTable _ _ _ _ _ => S n | _ => n end) s'.

  (** States after more calls, all of them allowed. *)
  Inductive later (I : einfos) (ok : ecall -> Prop) (s : eworld) : eworld -> Prop :=
    | later_now : later I ok s s
    | later_call s1 c out s2 :
        later I ok s s1 -> ok c -> known_call (e_idt s1) c -> estep I s1 c = (out, s2) -> later I ok s s2.

  (** The definition of a system table. *)
  Definition text_column : coltype := {| ct_type := StringType; ct_size := 128; ct_fixed := false; ct_notnull := true |}.
  Definition number_column : coltype := {| ct_type := Int64Type; ct_size := 8; ct_fixed := false; ct_notnull := true |}.
  Definition system_def (cols : list string) (types : list coltype) (nkey : nat) : tabledef :=
    {| td_cols := map (fun c => (false, str c)) cols; td_types := types;
       td_key := keys_of (map (fun i => (i, false)) (seq 0 nkey)) |}.

  (** The catalogue at the start. *)
  Definition system_table (n : string) (id : Z) (td : tabledef) := ((str "system", str "info", str n), (id, td)).
  Definition first_catalogue : catalogue := {|
    c_databases := [str "system"; str "maho"];
    c_schemas := [(str "system", str "info"); (str "maho", str "public")];
    c_tables := [
      system_table "sequences" 16 (system_def ["sequence"; "current"]%string [text_column; number_column] 1);
      system_table "databases" 17 (system_def ["database"%string] [text_column] 1);
      system_table "schemas" 18 (system_def ["database"; "schema"]%string [text_column; text_column] 2);
      system_table "tables" 19 (system_def ["database"; "schema"; "table"; "table_id"; "type"]%string
        [text_column; text_column; text_column; number_column;
         {| ct_type := BytesType; ct_size := 8192; ct_fixed := false; ct_notnull := true |}] 3)];
    c_next := 512
  |}.
  Definition first_machine : machine := {| m_cat := first_catalogue; m_cur := None; m_count := 0 |}.
End Reach.

(** States of the machine after calls, so many of them NCreateTable. *)
Inductive mreach {E : EGobLib} : nat -> machine -> Prop :=
  | mr_first : mreach O first_machine
  | mr_call n m c :
      mreach n m -> mreach (match c with NCreateTable _ _ _ _ _ => S n | _ => n end) (snd (mstep m c)).

(** The numbers of the tables in the stored catalogue: distinct and less than the
    next one; those of the four tables there at the start are 16 to 19, all
    others are larger than 511. *)
Definition system_row (n : string) (id : Z) (r : row) : Prop :=
  firstn 4 r = [VString (str "system"); VString (str "info"); VString (str n); VInt id].
Definition numbered (n : nat) (t : tree) : Prop :=
  exists next, rows_in t 16 = [[VString (str "next_table_id"); VInt next]] /\ 512 <= next <= 512 + Z.of_nat n /\
    NoDup (map (fun r => nth 3 r VNull) (rows_in t 19)) /\
    Forall (fun r =>
      (exists id, nth 3 r VNull = VInt id /\ 511 < id < next) \/
      system_row "sequences" 16 r \/ system_row "databases" 17 r \/ system_row "schemas" 18 r \/ system_row "tables" 19 r)
      (rows_in t 19).

(** A name of a column that is not a keyword, and not too long. *)
Definition ordinary (t : idtable) (i : Z) : Prop :=
  known_id t i /\ IsReserved i = false /\ ~ In (idString t i) nonreserved_words /\ zlen (idString t i) <= 128.
