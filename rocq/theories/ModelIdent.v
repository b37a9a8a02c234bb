(** types/identifier.go: interned identifiers. *)

From Verif Require Export ModelBase.

(** The values of the constants, types/identifier.go:16-63 (1, 2, ...) and
    65-142 (-1, -2, ...), are written as numbers. *)

(** [MaxIdentifier], types/identifier.go:12. *)
Definition MaxIdentifier : nat := 128.

(** [ROWID], types/identifier.go:52. *)
Definition ROWID : Z := 36.

(** The initial contents of [identifiers], types/identifier.go:145-170. *)
Definition identifiers0 : list (bytes * Z) :=
  [
    (str "", 0);
    (str "btree", 6);
    (str "columns", 11);
    (str "config", 12);
    (str "constraints", 13);
    (str "count", 14);
    (str "count_all", 15);
    (str "databases", 16);
    (str "description", 17);
    (str "field", 20);
    (str "flags", 19);
    (str "indexes", 21);
    (str "info", 22);
    (str "maho", 28);
    (str "metadata", 29);
    (str "primary", 31);
    (str "private", 32);
    (str "public", 33);
    (str "__rowid", 36);
    (str "schemas", 37);
    (str "sequences", 38);
    (str "system", 41);
    (str "tables", 42);
    (str "tree", 44)
  ].

(** [keywords], types/identifier.go:172-271. *)
Definition keywords : list (bytes * Z) :=
  [
    (str "ACTION", (-1));
    (str "ADD", (-2));
    (str "ALL", (-3));
    (str "ALTER", (-4));
    (str "AND", (-5));
    (str "ANY", (-6));
    (str "AS", (-7));
    (str "ASC", (-8));
    (str "BEGIN", (-9));
    (str "BY", (-10));
    (str "BIGINT", 1);
    (str "BINARY", 2);
    (str "BLOB", 3);
    (str "BOOL", 4);
    (str "BOOLEAN", 5);
    (str "BYTEA", 7);
    (str "BYTES", 8);
    (str "CASCADE", (-11));
    (str "CHAR", 9);
    (str "CHARACTER", 10);
    (str "CHECK", (-12));
    (str "COLUMN", (-13));
    (str "COMMIT", (-14));
    (str "CONSTRAINT", (-15));
    (str "COPY", (-16));
    (str "CREATE", (-17));
    (str "CROSS", (-18));
    (str "DATABASE", (-19));
    (str "DEFAULT", (-20));
    (str "DELETE", (-21));
    (str "DELIMITER", (-22));
    (str "DESC", (-23));
    (str "DETACH", (-24));
    (str "DOUBLE", 18);
    (str "DROP", (-25));
    (str "EXECUTE", (-26));
    (str "EXISTS", (-27));
    (str "EXPLAIN", (-28));
    (str "FALSE", (-29));
    (str "FOREIGN", (-30));
    (str "FROM", (-31));
    (str "FULL", (-32));
    (str "GROUP", (-33));
    (str "HAVING", (-34));
    (str "IF", (-35));
    (str "IN", (-36));
    (str "INDEX", (-37));
    (str "INNER", (-38));
    (str "INSERT", (-39));
    (str "INT", 23);
    (str "INT2", 24);
    (str "INT4", 25);
    (str "INT8", 26);
    (str "INTEGER", 27);
    (str "INTO", (-40));
    (str "IS", (-41));
    (str "JOIN", (-42));
    (str "KEY", (-43));
    (str "LEFT", (-44));
    (str "NO", (-45));
    (str "NOT", (-46));
    (str "NULL", (-47));
    (str "ON", (-48));
    (str "OR", (-49));
    (str "ORDER", (-50));
    (str "OUTER", (-51));
    (str "PATH", 30);
    (str "PRECISION", 34);
    (str "PREPARE", (-52));
    (str "PRIMARY", (-53));
    (str "REAL", 35);
    (str "RESTRICT", (-55));
    (str "REFERENCES", (-54));
    (str "RIGHT", (-56));
    (str "ROLLBACK", (-57));
    (str "SCHEMA", (-58));
    (str "SELECT", (-59));
    (str "SET", (-60));
    (str "SHOW", (-61));
    (str "SMALLINT", 39);
    (str "SOME", (-62));
    (str "STDIN", 40);
    (str "START", (-63));
    (str "TABLE", (-64));
    (str "TEXT", 43);
    (str "TO", (-65));
    (str "TRANSACTION", (-66));
    (str "TRUE", (-67));
    (str "UNIQUE", (-68));
    (str "UPDATE", (-69));
    (str "USE", (-70));
    (str "USING", (-71));
    (str "VALUES", (-72));
    (str "VARBINARY", 45);
    (str "VARCHAR", 46);
    (str "VERBOSE", (-73));
    (str "WHERE", (-74));
    (str "WITH", (-75))
  ].

(** The value stored for a key in a Go map with string keys
    (types/identifier.go:280, 287). *)
Fixpoint lookup_bytes (m : list (bytes * Z)) (s : bytes) : option Z :=
  match m with
  | [] => None
  | (k, v) :: m' => if bytes_eqb k s then Some v else lookup_bytes m' s
  end.

(** The value stored for a key in a Go map with identifier keys
    (types/identifier.go:323). *)
Fixpoint lookup_Z (m : list (Z * bytes)) (i : Z) : option bytes :=
  match m with
  | [] => None
  | (k, v) :: m' => if k =? i then Some v else lookup_Z m' i
  end.

(** The package variables [identifiers], [names] and [lastIdentifier],
    types/identifier.go:144-276; assignments to the maps put the new entry in
    front.  [Identifier] is a Go [int]; that [lastIdentifier] does not overflow
    64 bits is assumed. *)
Record idtable : Set := {
  idt_ids : list (bytes * Z);
  idt_names : list (Z * bytes);
  idt_last : Z
}.

(** [init], types/identifier.go:352-366: the order in which Go iterates over
    the maps does not matter, as no identifier has two names. *)
Definition idt_init : idtable := {|
  idt_ids := identifiers0;
  idt_names := map (fun p => (snd p, fst p)) (identifiers0 ++ keywords);
  idt_last := fold_left Z.max (map snd (identifiers0 ++ keywords)) 0
|}.

(** [strings.ToUpper] and [strings.ToLower] (types/identifier.go:280, 284) are
    not modelled: the mapping of letters outside ASCII is a table of Go's
    unicode package. *)
Class CaseLib : Type := {
  x_to_upper : bytes -> bytes;
  x_to_lower : bytes -> bytes
}.

(** [lookupID], types/identifier.go:278-299; [None] is [0, false]. *)
Definition lookupID {L : CaseLib} (t : idtable) (s : bytes) (quoted create : bool)
  : idtable * option Z :=
  match (if quoted then None else lookup_bytes keywords (x_to_upper s)) with
  | Some id => (t, Some id)
  | None =>
      let s := if quoted then s else x_to_lower s in
      match lookup_bytes (idt_ids t) s with
      | Some id => (t, Some id)
      | None =>
          if create then
            let id := idt_last t + 1 in
            ({| idt_ids := (s, id) :: idt_ids t;
                idt_names := (id, s) :: idt_names t;
                idt_last := id |}, Some id)
          else (t, None)
      end
  end.

(** [s = s[:MaxIdentifier]] in [ID], types/identifier.go:302-304. *)
Definition truncID (s : bytes) : bytes :=
  if (MaxIdentifier <? length s)%nat then firstn MaxIdentifier s else s.

(** [ID], types/identifier.go:301-320, when nothing else runs. *)
Definition ID {L : CaseLib} (t : idtable) (s : bytes) (quoted : bool) : idtable * Z :=
  let s := truncID s in
  match lookupID t s quoted false with
  | (t, Some id) => (t, id)
  | (t, None) =>
      match lookupID t s quoted true with
      | (t, Some id) => (t, id)
      | (t, None) => (t, 0)
      end
  end.

(** [Identifier.String], types/identifier.go:322-324: the zero value "" if
    there is no entry.  In the code this read is not synchronised with [ID]. *)
Definition idString (t : idtable) (id : Z) : bytes :=
  match lookup_Z (idt_names t) id with Some s => s | None => [] end.

(** [Identifier.IsReserved], types/identifier.go:326-331. *)
Definition IsReserved (id : Z) : bool := id <? 0.

(** [Identifier.GobDecode], types/identifier.go:333-343; [None] is an error. *)
Definition idGobDecode {L : CaseLib} (t : idtable) (val : bytes) : option (idtable * Z) :=
  match val with
  | [] => None
  | b :: s =>
      if 1 <? bz b then None
      else if bz b =? 0 then Some (ID t s true)
      else Some (ID t s false)
  end.

(** [Identifier.GobEncode], types/identifier.go:345-350. *)
Definition idGobEncode (t : idtable) (id : Z) : bytes :=
  (if IsReserved id then x01 else x00) :: idString t id.

(** A goroutine executing [ID], types/identifier.go:301-320, between its
    critical sections: before the section of lines 306-308, between it and the
    section of lines 315-319 after a miss, and returned.  The sections are
    executed under a [sync.RWMutex] and are therefore single steps. *)
Inductive idthread : Set :=
  | TStart (s : bytes) (quoted : bool)
  | TMiss (s : bytes) (quoted : bool)
  | TDone (s : bytes) (quoted : bool) (id : Z).

(** One step of a goroutine in [ID], types/identifier.go:302-319. *)
Definition idThreadStep {L : CaseLib} (t : idtable) (th : idthread) : idtable * idthread :=
  match th with
  | TStart s q =>
      match lookupID t (truncID s) q false with
      | (t', Some id) => (t', TDone s q id)
      | (t', None) => (t', TMiss s q)
      end
  | TMiss s q =>
      match lookupID t (truncID s) q true with
      | (t', Some id) => (t', TDone s q id)
      | (t', None) => (t', TDone s q 0)
      end
  | TDone s q id => (t, th)
  end.

(** All goroutines and the shared table; a step starts a new call or lets one
    goroutine execute its next critical section (types/identifier.go:301-320,
    callers anywhere). *)
Inductive idstep {L : CaseLib} : idtable * list idthread -> idtable * list idthread -> Prop :=
  | idstep_call t ths s q : idstep (t, ths) (t, ths ++ [TStart s q])
  | idstep_run t ths1 th ths2 t' th' :
      idThreadStep t th = (t', th') ->
      idstep (t, ths1 ++ th :: ths2) (t', ths1 ++ th' :: ths2).

(** Any number of steps from the state after [init], types/identifier.go:352. *)
Inductive idreach {L : CaseLib} : idtable * list idthread -> Prop :=
  | idreach_init : idreach (idt_init, [])
  | idreach_step c c' : idreach c -> idstep c c' -> idreach c'.
