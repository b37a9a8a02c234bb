(** The parser: parser/parser.go.

    What the functions of the parser do is a tree of actions: scanning a token,
    un-reading one, looking at the current one, and so on; how these are carried
    out, on the ring of tokens and the scanner, is [run].  The texts of errors are
    not modelled.  Loops and recursive functions carry fuel. *)

From Verif Require Export ModelSql ModelScanner.

(** The keywords as numbers, types/identifier.go:65-142. *)
Notation kACTION := (-1).
Notation kADD := (-2).
Notation kALL := (-3).
Notation kALTER := (-4).
Notation kAND := (-5).
Notation kANY := (-6).
Notation kAS := (-7).
Notation kASC := (-8).
Notation kBEGIN := (-9).
Notation kBY := (-10).
Notation kCASCADE := (-11).
Notation kCHECK := (-12).
Notation kCOLUMN := (-13).
Notation kCOMMIT := (-14).
Notation kCONSTRAINT := (-15).
Notation kCOPY := (-16).
Notation kCREATE := (-17).
Notation kCROSS := (-18).
Notation kDATABASE := (-19).
Notation kDEFAULT := (-20).
Notation kDELETE := (-21).
Notation kDELIMITER := (-22).
Notation kDESC := (-23).
Notation kDETACH := (-24).
Notation kDROP := (-25).
Notation kEXECUTE := (-26).
Notation kEXISTS := (-27).
Notation kEXPLAIN := (-28).
Notation kFALSE := (-29).
Notation kFOREIGN := (-30).
Notation kFROM := (-31).
Notation kFULL := (-32).
Notation kGROUP := (-33).
Notation kHAVING := (-34).
Notation kIF := (-35).
Notation kIN := (-36).
Notation kINDEX := (-37).
Notation kINNER := (-38).
Notation kINSERT := (-39).
Notation kINTO := (-40).
Notation kIS := (-41).
Notation kJOIN := (-42).
Notation kKEY := (-43).
Notation kLEFT := (-44).
Notation kNO := (-45).
Notation kNOT := (-46).
Notation kNULL := (-47).
Notation kON := (-48).
Notation kOR := (-49).
Notation kORDER := (-50).
Notation kOUTER := (-51).
Notation kPREPARE := (-52).
Notation kPRIMARY := (-53).
Notation kREFERENCES := (-54).
Notation kRESTRICT := (-55).
Notation kRIGHT := (-56).
Notation kROLLBACK := (-57).
Notation kSCHEMA := (-58).
Notation kSELECT := (-59).
Notation kSET := (-60).
Notation kSHOW := (-61).
Notation kSOME := (-62).
Notation kSTART := (-63).
Notation kTABLE := (-64).
Notation kTO := (-65).
Notation kTRANSACTION := (-66).
Notation kTRUE := (-67).
Notation kUNIQUE := (-68).
Notation kUPDATE := (-69).
Notation kUSE := (-70).
Notation kUSING := (-71).
Notation kVALUES := (-72).
Notation kVERBOSE := (-73).
Notation kWHERE := (-74).
Notation kWITH := (-75).

(** Identifiers that are known but not reserved, types/identifier.go:15-63. *)
Notation iBTREE := 6.
Notation iCOLUMNS := 11.
Notation iCONFIG := 12.
Notation iCONSTRAINTS := 13.
Notation iCOUNT := 14.
Notation iCOUNT_ALL := 15.
Notation iDATABASES := 16.
Notation iDOUBLE := 18.
Notation iINFO := 22.
Notation iMETADATA := 29.
Notation iPRECISION := 34.
Notation iSCHEMAS := 37.
Notation iSTDIN := 40.
Notation iSYSTEM := 41.
Notation iTABLES := 42.

(** What the parser reads of a [ScanCtx], parser/scanner/scanner.go:27-36: the
    token and the field that goes with it; the other fields are stale and are
    read only for the texts of errors (parser/parser.go:112-135).  Of an error the
    parser needs to know whether there is one. *)
Inductive tok : Set :=
  | KEOF
  | KEnd
  | KError (some : bool)
  | KIdent (id : Z)
  | KReserved (id : Z)
  | KString (s : bytes)
  | KBytes (l : slice)
  | KInteger (i : Z)
  | KFloat (p : Z)
  | KParameter (i : Z)
  | KRune (r : Z).

(** The token in an entry of [lookBack], parser/parser.go:19, 75-98. *)
Definition tok_of (c : sctx) : tok :=
  let t := c_token c in
  if t =? tEOF then KEOF
  else if t =? tEndOfStatement then KEnd
  else if t =? tError then KError (match c_error c with Some _ => true | None => false end)
  else if t =? tIdentifier then KIdent (c_ident c)
  else if t =? tReserved then KReserved (c_ident c)
  else if t =? tString then KString (c_string c)
  else if t =? tBytes then KBytes (c_bytes c)
  else if t =? tInteger then KInteger (c_integer c)
  else if t =? tFloat then KFloat (c_float c)
  else if t =? tParameter then KParameter (c_integer c)
  else KRune t.

(** [sctx.Token], parser/token/token.go:7-49. *)
Definition rune_of (k : tok) : Z :=
  match k with
  | KEOF => tEOF
  | KEnd => tEndOfStatement
  | KError _ => tError
  | KIdent _ => tIdentifier
  | KReserved _ => tReserved
  | KString _ => tString
  | KBytes _ => tBytes
  | KInteger _ => tInteger
  | KFloat _ => tFloat
  | KParameter _ => tParameter
  | KRune r => r
  end.

(** A value of bytes is a slice of the scanner's buffer (parser/parser.go:1190).
    Until the statement is returned, a literal holds the place of the slice in
    unary; see [deref_stmt]. *)
Definition slice_code (l : slice) : bytes := repeat x01 (sl_array l) ++ x00 :: repeat x01 (sl_len l).
Fixpoint ones (b : bytes) : nat * bytes :=
  match b with
  | x01 :: b' => let '(n, r) := ones b' in (S n, r)
  | _ => (O, b)
  end.
Definition slice_decode (b : bytes) : slice :=
  let '(n, r) := ones b in {| sl_array := n; sl_len := length (tl r) |}.

(** What the functions of the parser do.  The end is a result, a call of
    [p.error] (parser/parser.go:72-74), a run-time panic, which [Parse] passes on
    (58-60), or the end of the fuel.  On the way there are [p.scan] (91-97) and
    [p.unscan] (99-110), [p.sctx] is read, [types.ID(s, false)] and
    [Identifier.String] are called, a slice of bytes is read (1880) and
    [p.scanner.RuneReader] is called (1395), whose result is a line. *)
Inductive act (A : Type) : Type :=
  | ARet (a : A)
  | AError
  | ACrash
  | AFuel
  | AScan (k : tok -> act A)
  | AUnscan (k : act A)
  | ATok (k : tok -> act A)
  | AIntern (s : bytes) (k : Z -> act A)
  | AName (id : Z) (k : bytes -> act A)
  | ABytes (l : slice) (k : bytes -> act A)
  | AReader (k : Z -> act A).
Arguments ARet {A}. Arguments AError {A}. Arguments ACrash {A}. Arguments AFuel {A}.
Arguments AScan {A}. Arguments AUnscan {A}. Arguments ATok {A}. Arguments AIntern {A}.
Arguments AName {A}. Arguments ABytes {A}. Arguments AReader {A}.

(** Sequencing of the statements of parser/parser.go; no counterpart in the code. *)
Fixpoint abind {A B} (g : act A) (h : A -> act B) : act B :=
  match g with
  | ARet a => h a
  | AError => AError
  | ACrash => ACrash
  | AFuel => AFuel
  | AScan k => AScan (fun t => abind (k t) h)
  | AUnscan k => AUnscan (abind k h)
  | ATok k => ATok (fun t => abind (k t) h)
  | AIntern s k => AIntern s (fun i => abind (k i) h)
  | AName i k => AName i (fun s => abind (k s) h)
  | ABytes l k => ABytes l (fun b => abind (k b) h)
  | AReader k => AReader (fun z => abind (k z) h)
  end.

Declare Scope a_scope.
Notation "'let+' x := m 'in' k" := (abind m (fun x => k))
  (at level 200, x name, m at level 100, k at level 200) : a_scope.
Notation "'let+' ' x := m 'in' k" := (abind m (fun x => k))
  (at level 200, x strict pattern, m at level 100, k at level 200) : a_scope.
Notation "m ;+ k" := (abind m (fun _ => k)) (at level 100, right associativity) : a_scope.
Open Scope a_scope.

(** [for { ... }] (e.g. parser/parser.go:428-434): the body goes on with a new
    state or breaks. *)
Fixpoint aloop {S R : Type} (n : nat) (body : S -> act (S + R)) (s : S) : act R :=
  match n with
  | O => AFuel
  | Datatypes.S n' =>
      let+ x := body s in
      match x with inl s' => aloop n' body s' | inr r => ARet r end
  end.

(** [p.scan()], parser/parser.go:91-97, [p.unscan()], 99-110, and reading
    [p.sctx]. *)
Definition scan_ : act tok := AScan ARet.
Definition unscan_ : act unit := AUnscan (ARet tt).
Definition tok_ : act tok := ATok ARet.
Definition intern_ (s : bytes) : act Z := AIntern s ARet.
Definition name_ (id : Z) : act bytes := AName id ARet.

(** [p.sctx.Identifier] (e.g. parser/parser.go:184), read when the token is an
    identifier or reserved. *)
Definition ident_of (k : tok) : Z :=
  match k with KIdent id => id | KReserved id => id | _ => 0 end.

(** [p.error(... p.got())] (e.g. parser/parser.go:161): [got], 112-135, calls
    [Error] of a nil error if the token is an error without one. *)
Definition errorGot {A} : act A :=
  ATok (fun t => match t with KError false => ACrash | _ => AError end).

(** Whether a reserved word was scanned, e.g. parser/parser.go:136-176. *)
Definition is_reserved (k : tok) (ids : list Z) : bool :=
  match k with KReserved id => existsb (Z.eqb id) ids | _ => false end.

(** [expectReserved], parser/parser.go:137-163. *)
Definition expectReserved (ids : list Z) : act Z :=
  let+ t := scan_ in
  if is_reserved t ids then ARet (ident_of t) else errorGot.

(** [optionalReserved], parser/parser.go:165-177. *)
Definition optionalReserved (ids : list Z) : act bool :=
  let+ t := scan_ in
  if is_reserved t ids then ARet true else unscan_ ;+ ARet false.

(** [expectIdentifier], parser/parser.go:179-185. *)
Definition expectIdentifier : act Z :=
  let+ t := scan_ in
  match t with KIdent id => ARet id | _ => errorGot end.

(** [maybeIdentifier], parser/parser.go:187-194. *)
Definition maybeIdentifier (id : Z) : act bool :=
  let+ t := scan_ in
  match t with
  | KIdent i => if i =? id then ARet true else unscan_ ;+ ARet false
  | _ => unscan_ ;+ ARet false
  end.

(** [expectTokens], parser/parser.go:196-220. *)
Definition expectTokens (rs : list Z) : act Z :=
  let+ t := scan_ in
  if existsb (Z.eqb (rune_of t)) rs then ARet (rune_of t) else errorGot.

(** [maybeToken], parser/parser.go:222-228. *)
Definition maybeToken (r : Z) : act bool :=
  let+ t := scan_ in
  if rune_of t =? r then ARet true else unscan_ ;+ ARet false.

(** [expectInteger], parser/parser.go:230-237. *)
Definition expectInteger (lo hi : Z) : act Z :=
  let+ t := scan_ in
  match t with
  | KInteger i => if (i <? lo) || (hi <? i) then errorGot else ARet i
  | _ => errorGot
  end.

(** [expectEndOfStatement], parser/parser.go:239-244. *)
Definition expectEndOfStatement : act unit :=
  let+ t := scan_ in
  match t with KEOF => ARet tt | KEnd => ARet tt | _ => errorGot end.

(** [parseSchemaName], parser/parser.go:369-379. *)
Definition parseSchemaName : act schemaname :=
  let+ id := expectIdentifier in
  let+ dot := maybeToken tDot in
  if dot then
    let+ id2 := expectIdentifier in
    ARet {| sn_database := id; sn_schema := id2 |}
  else ARet {| sn_database := 0; sn_schema := id |}.

(** [parseTableName], parser/parser.go:381-394. *)
Definition parseTableName : act tablename :=
  let+ id := expectIdentifier in
  let+ dot := maybeToken tDot in
  if dot then
    let+ id2 := expectIdentifier in
    let+ dot := maybeToken tDot in
    if dot then
      let+ id3 := expectIdentifier in
      ARet {| tn_database := id; tn_schema := id2; tn_table := id3 |}
    else ARet {| tn_database := 0; tn_schema := id; tn_table := id2 |}
  else ARet {| tn_database := 0; tn_schema := 0; tn_table := id |}.

(** [parseAlias], parser/parser.go:396-408. *)
Definition parseAlias (required : bool) : act Z :=
  let+ as_ := optionalReserved [kAS] in
  if as_ then expectIdentifier
  else
    let+ t := scan_ in
    match t with
    | KIdent id => ARet id
    | _ => if required then AError else unscan_ ;+ ARet 0
    end.

(** [parseTableAlias], parser/parser.go:410-420. *)
Definition parseTableAlias : act fromitem :=
  let+ tn := parseTableName in
  let+ at_ := maybeToken tAtSign in
  if at_ then
    let+ index := expectIdentifier in
    let+ alias := parseAlias false in
    ARet (FromIndexAlias tn index alias)
  else
    let+ alias := parseAlias false in
    ARet (FromTableAlias tn alias).

(** The loops over columns that end with [maybeToken(RParen)] and go on with
    [expectTokens(Comma)], parser/parser.go:428-434, 530-536, 543-549. *)
Definition parseColumns (n : nat) : act (list Z) :=
  aloop n (fun cols =>
    let+ id := expectIdentifier in
    let cols := cols ++ [id] in
    let+ paren := maybeToken tRParen in
    if paren then ARet (inr cols)
    else expectTokens [tComma] ;+ ARet (inl cols)) [].

(** [parseColumnAliases], parser/parser.go:422-436. *)
Definition parseColumnAliases (n : nat) : act (list Z) :=
  let+ paren := maybeToken tLParen in
  if paren then parseColumns n else ARet [].

(** [c == nam] for one of the columns, e.g. parser/parser.go:462. *)
Definition mem (id : Z) (ids : list Z) : bool := existsb (Z.eqb id) ids.

(** The loops over distinct columns, parser/parser.go:1310-1322, 1365-1377,
    1582-1594. *)
Definition parseDistinctColumns (n : nat) : act (list Z) :=
  aloop n (fun cols =>
    let+ id := expectIdentifier in
    if mem id cols then AError
    else
      let cols := cols ++ [id] in
      let+ r := expectTokens [tComma; tRParen] in
      if r =? tRParen then ARet (inr cols) else ARet (inl cols)) [].

(** [parseKey], parser/parser.go:454-484. *)
Definition parseKey (n : nat) (unique : bool) : act indexkey :=
  expectTokens [tLParen] ;+
  aloop n (fun '(cols, rev) =>
    let+ nam := expectIdentifier in
    if mem nam cols then AError
    else
      let cols := cols ++ [nam] in
      let+ asc := optionalReserved [kASC] in
      let+ rev :=
        (if asc then ARet (rev ++ [false])
         else
           let+ desc := optionalReserved [kDESC] in
           if desc then ARet (rev ++ [true]) else ARet (rev ++ [false])) in
      let+ r := expectTokens [tComma; tRParen] in
      if r =? tRParen then ARet (inr {| ik_unique := unique; ik_columns := cols; ik_reverse := rev |})
      else ARet (inl (cols, rev))) ([], []).

(** [parseRefAction], parser/parser.go:486-504; its last line is not reached. *)
Definition parseRefAction : act refaction :=
  let+ kw := expectReserved [kNO; kRESTRICT; kCASCADE; kSET] in
  if kw =? kNO then expectReserved [kACTION] ;+ ARet NoAction
  else if kw =? kRESTRICT then ARet Restrict
  else if kw =? kCASCADE then ARet Cascade
  else if kw =? kSET then
    let+ kw := expectReserved [kNULL; kDEFAULT] in
    if kw =? kNULL then ARet SetNull
    else if kw =? kDEFAULT then ARet SetDefault
    else ACrash
  else ACrash.

(** Assignments to [fk.OnDelete] and [fk.OnUpdate], parser/parser.go:513, 519. *)
Definition set_ondelete (fk : foreignkey) (a : refaction) : foreignkey :=
  {| fk_name := fk_name fk; fk_cols := fk_cols fk; fk_ref := fk_ref fk; fk_refcols := fk_refcols fk;
     fk_ondelete := a; fk_onupdate := fk_onupdate fk |}.
Definition set_onupdate (fk : foreignkey) (a : refaction) : foreignkey :=
  {| fk_name := fk_name fk; fk_cols := fk_cols fk; fk_ref := fk_ref fk; fk_refcols := fk_refcols fk;
     fk_ondelete := fk_ondelete fk; fk_onupdate := a |}.

(** [parseOnActions], parser/parser.go:506-525. *)
Definition parseOnActions (n : nat) (fk : foreignkey) : act foreignkey :=
  aloop n (fun '(fk, onDelete, onUpdate) =>
    let+ on := optionalReserved [kON] in
    if on then
      let+ kw := expectReserved [kDELETE; kUPDATE] in
      if kw =? kDELETE then
        if onDelete : bool then AError
        else
          let+ a := parseRefAction in
          ARet (inl (set_ondelete fk a, true, onUpdate))
      else
        if onUpdate : bool then AError
        else
          let+ a := parseRefAction in
          ARet (inl (set_onupdate fk a, onDelete, true))
    else ARet (inr fk)) (fk, false, false).

(** A new [ForeignKey], parser/parser.go:553-558, 839-844; the zero [RefAction]
    is [NoAction] (parser/sql/datadef.go:102). *)
Definition newForeignKey (cn : Z) (cols : list Z) (rtn : tablename) (refCols : list Z) : foreignkey :=
  {| fk_name := cn; fk_cols := cols; fk_ref := rtn; fk_refcols := refCols;
     fk_ondelete := NoAction; fk_onupdate := NoAction |}.

(** [parseForeignKey], parser/parser.go:527-559. *)
Definition parseForeignKey (n : nat) (cn : Z) : act foreignkey :=
  expectTokens [tLParen] ;+
  let+ cols := parseColumns n in
  expectReserved [kREFERENCES] ;+
  let+ rtn := parseTableName in
  let+ paren := maybeToken tLParen in
  let+ refCols := (if paren then parseColumns n else ARet []) in
  parseOnActions n (newForeignKey cn cols rtn refCols).

(** [MaxColumnSize], types/column.go:12. *)
Definition MaxColumnSize : Z := 4294967294.

(** [ColumnTypes], parser/parser.go:618-641; the identifiers are
    types/identifier.go:16-62. *)
Definition ColumnTypes : list (Z * coltype) :=
  let ct t s f := {| ct_type := t; ct_size := s; ct_fixed := f; ct_notnull := false |} in
  [ (2, ct BytesType 1 true);               (* BINARY *)
    (45, ct BytesType 1 false);             (* VARBINARY *)
    (3, ct BytesType MaxColumnSize false);  (* BLOB *)
    (7, ct BytesType MaxColumnSize false);  (* BYTEA *)
    (8, ct BytesType MaxColumnSize false);  (* BYTES *)
    (9, ct StringType 1 true);              (* CHAR *)
    (10, ct StringType 1 true);             (* CHARACTER *)
    (46, ct StringType 1 false);            (* VARCHAR *)
    (43, ct StringType MaxColumnSize false);(* TEXT *)
    (4, ct BoolType 1 false);               (* BOOL *)
    (5, ct BoolType 1 false);               (* BOOLEAN *)
    (18, ct Float64Type 8 false);           (* DOUBLE *)
    (35, ct Float64Type 4 false);           (* REAL *)
    (39, ct Int64Type 2 false);             (* SMALLINT *)
    (24, ct Int64Type 2 false);             (* INT2 *)
    (23, ct Int64Type 4 false);             (* INT *)
    (27, ct Int64Type 4 false);             (* INTEGER *)
    (25, ct Int64Type 4 false);             (* INT4 *)
    (26, ct Int64Type 8 false);             (* INT8 *)
    (1, ct Int64Type 8 false)               (* BIGINT *) ].

(** The look-up in the map, parser/parser.go:670. *)
Definition findColumnType (id : Z) : option coltype :=
  option_map snd (find (fun p => fst p =? id) ColumnTypes).

(** Assignments to fields of a [ColumnType], parser/parser.go:681, 796. *)
Definition set_size (ct : coltype) (s : Z) : coltype :=
  {| ct_type := ct_type ct; ct_size := s; ct_fixed := ct_fixed ct; ct_notnull := ct_notnull ct |}.
Definition set_notnull (ct : coltype) : coltype :=
  {| ct_type := ct_type ct; ct_size := ct_size ct; ct_fixed := ct_fixed ct; ct_notnull := true |}.

(** [parseColumnType], parser/parser.go:643-687. *)
Definition parseColumnType : act coltype :=
  let+ typ := expectIdentifier in
  match findColumnType typ with
  | None => AError
  | Some ct =>
      (if typ =? iDOUBLE then maybeIdentifier iPRECISION ;+ ARet tt else ARet tt) ;+
      match ct_type ct with
      | StringType | BytesType =>
          let+ paren := maybeToken tLParen in
          if paren then
            let+ i := expectInteger 0 MaxColumnSize in
            expectTokens [tRParen] ;+
            ARet (set_size ct (u32 i))
          else ARet ct
      | _ => ARet ct
      end
  end.

(** The names of the columns of a key, each with a [_] behind it,
    parser/parser.go:694-697. *)
Fixpoint columnNames (cols : list Z) : act bytes :=
  match cols with
  | [] => ARet []
  | c :: cols' =>
      let+ s := name_ c in
      let+ r := columnNames cols' in
      ARet (s ++ str "_" ++ r)
  end.

(** [makeKeyConstraintName], parser/parser.go:689-700. *)
Definition makeKeyConstraintName (cn : Z) (key : indexkey) (suffix : bytes) : act Z :=
  if cn =? 0 then
    let+ nam := columnNames (ik_columns key) in
    intern_ (nam ++ suffix)
  else ARet cn.

(** The fields of [CreateTable] that are built up, parser/sql/datadef.go:146-155. *)
Record ctable : Set := {
  cb_cols : list Z;
  cb_types : list coltype;
  cb_defaults : list (option expr);
  cb_csts : list (constraint expr);
  cb_fks : list foreignkey
}.
Definition noTable : ctable :=
  {| cb_cols := []; cb_types := []; cb_defaults := []; cb_csts := []; cb_fks := [] |}.

(** Appending to the fields, parser/parser.go:594, 604, 720, 740, 768, 821, 837,
    852-853. *)
Definition add_col (s : ctable) (c : Z) : ctable :=
  {| cb_cols := cb_cols s ++ [c]; cb_types := cb_types s; cb_defaults := cb_defaults s;
     cb_csts := cb_csts s; cb_fks := cb_fks s |}.
Definition add_cst (s : ctable) (c : constraint expr) : ctable :=
  {| cb_cols := cb_cols s; cb_types := cb_types s; cb_defaults := cb_defaults s;
     cb_csts := cb_csts s ++ [c]; cb_fks := cb_fks s |}.
Definition add_fk (s : ctable) (f : foreignkey) : ctable :=
  {| cb_cols := cb_cols s; cb_types := cb_types s; cb_defaults := cb_defaults s;
     cb_csts := cb_csts s; cb_fks := cb_fks s ++ [f] |}.
Definition add_type (s : ctable) (t : coltype) (d : option expr) : ctable :=
  {| cb_cols := cb_cols s; cb_types := cb_types s ++ [t]; cb_defaults := cb_defaults s ++ [d];
     cb_csts := cb_csts s; cb_fks := cb_fks s |}.

(** [==] of two constraint types, parser/sql/datadef.go:47-55, as used in parser/parser.go:709. *)
Definition contype_eqb (a b : contype) : bool :=
  match a, b with
  | DefaultConstraint, DefaultConstraint | NotNullConstraint, NotNullConstraint
  | PrimaryConstraint, PrimaryConstraint | UniqueConstraint, UniqueConstraint
  | CheckConstraint, CheckConstraint => true
  | _, _ => false
  end.

(** The second loop of [addKeyConstraint], parser/parser.go:714-718. *)
Fixpoint checkKeys (nkey : indexkey) (csts : list (constraint expr)) : act unit :=
  match csts with
  | [] => ARet tt
  | c :: csts' =>
      match keyEqual nkey (con_key c) with
      | None => ACrash
      | Some true => AError
      | Some false => checkKeys nkey csts'
      end
  end.

(** [addKeyConstraint], parser/parser.go:702-727. *)
Definition addKeyConstraint (s : ctable) (ct : contype) (cn : Z) (nkey : indexkey) : act ctable :=
  if existsb (fun c => (con_name c =? cn) ||
                       (contype_eqb (con_type c) PrimaryConstraint && contype_eqb ct PrimaryConstraint))
       (cb_csts s)
  then AError
  else
    checkKeys nkey (cb_csts s) ;+
    ARet (add_cst s {| con_type := ct; con_name := cn; con_colnum := -1; con_key := nkey; con_check := None |}).

(** [addColumnConstraint], parser/parser.go:729-746. *)
Definition addColumnConstraint (s : ctable) (ct : contype) (cn : Z) (colNum : Z) : act ctable :=
  if existsb (fun c => (con_name c =? cn) || ((colNum =? con_colnum c) && contype_eqb ct (con_type c)))
       (cb_csts s)
  then AError
  else
    ARet (add_cst s {| con_type := ct; con_name := cn; con_colnum := colNum; con_key := noKey; con_check := None |}).

(** A [CHECK] constraint, parser/parser.go:595-600, 822-827. *)
Definition checkConstraint (cn colNum : Z) (e : expr) : constraint expr :=
  {| con_type := CheckConstraint; con_name := cn; con_colnum := colNum; con_key := noKey; con_check := Some e |}.

(** The key of a column constraint, parser/parser.go:804-808, 814-818. *)
Definition columnKey (nam : Z) : indexkey :=
  {| ik_unique := true; ik_columns := [nam]; ik_reverse := [false] |}.

(** [CONSTRAINT constraint], parser/parser.go:578-581, 774-777, 875-878; zero if
    there is none. *)
Definition parseConstraintName : act Z :=
  let+ b := optionalReserved [kCONSTRAINT] in
  if b then expectIdentifier else ARet 0.

(** [opPrecedence], parser/parser.go:1033-1056. *)
Definition opPrecedence (op : sqlop) : Z :=
  match op with
  | AddOp => 7
  | AndOp => 2
  | BinaryAndOp => 6
  | BinaryOrOp => 6
  | ConcatOp => 10
  | DivideOp => 8
  | EqualOp => 4
  | GreaterEqualOp => 5
  | GreaterThanOp => 5
  | LessEqualOp => 5
  | LessThanOp => 5
  | LShiftOp => 6
  | ModuloOp => 8
  | MultiplyOp => 8
  | NegateOp => 9
  | NoOp => 11
  | NotEqualOp => 4
  | NotOp => 3
  | OrOp => 1
  | RShiftOp => 6
  | SubtractOp => 7
  end.

(** [binaryOps], parser/parser.go:1058-1081: the operator and whether it is
    boolean. *)
Definition binaryOps (r : Z) : option (sqlop * bool) :=
  if r =? tAmpersand then Some (BinaryAndOp, false)
  else if r =? tBar then Some (BinaryOrOp, false)
  else if r =? tBarBar then Some (ConcatOp, false)
  else if r =? tEqual then Some (EqualOp, true)
  else if r =? tEqualEqual then Some (EqualOp, true)
  else if r =? tBangEqual then Some (NotEqualOp, true)
  else if r =? tGreater then Some (GreaterThanOp, true)
  else if r =? tGreaterEqual then Some (GreaterEqualOp, true)
  else if r =? tGreaterGreater then Some (RShiftOp, false)
  else if r =? tLess then Some (LessThanOp, true)
  else if r =? tLessEqual then Some (LessEqualOp, true)
  else if r =? tLessGreater then Some (NotEqualOp, true)
  else if r =? tLessLess then Some (LShiftOp, false)
  else if r =? tMinus then Some (SubtractOp, false)
  else if r =? tPercent then Some (ModuloOp, false)
  else if r =? tPlus then Some (AddOp, false)
  else if r =? tSlash then Some (DivideOp, false)
  else if r =? tStar then Some (MultiplyOp, false)
  else None.

(** [adjustPrecedence], parser/parser.go:1083-1121: the code changes the tree in
    place; no node occurs twice in it, as the parser makes a new one each time.
    [None] is the end of the fuel. *)
Fixpoint adjustPrecedence (n : nat) (e : expr) : option expr :=
  match n with
  | O => None
  | S n' =>
      match e with
      | UnaryExpr op x =>
          match adjustPrecedence n' x with
          | None => None
          | Some x =>
              match op with
              | NoOp => Some (UnaryExpr op x)
              | _ =>
                  match x with
                  | BinaryExpr bop l r =>
                      if opPrecedence bop <? opPrecedence op
                      then adjustPrecedence n' (BinaryExpr bop (UnaryExpr op l) r)
                      else Some (UnaryExpr op x)
                  | _ => Some (UnaryExpr op x)
                  end
              end
          end
      | BinaryExpr op l r =>
          match adjustPrecedence n' l, adjustPrecedence n' r with
          | Some l, Some r =>
              let left :=
                match l with
                | BinaryExpr lop a b =>
                    if opPrecedence lop <? opPrecedence op
                    then adjustPrecedence n' (BinaryExpr lop a (BinaryExpr op b r))
                    else Some (BinaryExpr op l r)
                | _ => Some (BinaryExpr op l r)
                end in
              match r with
              | BinaryExpr rop a b =>
                  if opPrecedence rop <=? opPrecedence op
                  then adjustPrecedence n' (BinaryExpr rop (BinaryExpr op l a) b)
                  else left
              | _ => left
              end
          | _, _ => None
          end
      | SExpr nam args =>
          option_map (SExpr nam)
            ((fix adjustArgs (args : list expr) : option (list expr) :=
                match args with
                | [] => Some []
                | a :: args' =>
                    match adjustPrecedence n' a, adjustArgs args' with
                    | Some a, Some r => Some (a :: r)
                    | _, _ => None
                    end
                end) args)
      | _ => Some e
      end
  end.

(** Fuel for [adjustPrecedence].  The function is
    parser/parser.go:1083-1121. *)
Fixpoint expr_size (e : expr) : nat :=
  match e with
  | UnaryExpr _ x => S (expr_size x)
  | BinaryExpr _ l r => S (expr_size l + expr_size r)
  | SExpr _ args => S ((fix sizes (l : list expr) : nat :=
                          match l with [] => O | a :: l' => (expr_size a + sizes l')%nat end) args)
  | _ => 1%nat
  end.
Definition adjust (e : expr) : act expr :=
  match adjustPrecedence (8 * expr_size e) e with
  | Some e => ARet e
  | None => AFuel
  end.

(** [optionalBinaryOp], parser/parser.go:1152-1167; [None] is [0, false, false]. *)
Definition optionalBinaryOp : act (option (sqlop * bool)) :=
  let+ t := scan_ in
  match binaryOps (rune_of t) with
  | Some b => ARet (Some b)
  | None =>
      if is_reserved t [kAND] then ARet (Some (AndOp, true))
      else if is_reserved t [kOR] then ARet (Some (OrOp, true))
      else unscan_ ;+ ARet None
  end.

(** A table name without alias in a [From], e.g. parser/parser.go:1727-1733. *)
Definition fromTable (db sc t : Z) : option fromitem :=
  Some (FromTableAlias {| tn_database := db; tn_schema := sc; tn_table := t |} 0).

(** A [Select] of everything in a table, e.g. parser/parser.go:1726-1743. *)
Definition selectFrom (results : option (list (selectresult expr))) (f : option fromitem) (w : option expr) : stmt :=
  SSelect results f w [] None [].

(** [(SHOW SCHEMA)], parser/parser.go:1691, 1825. *)
Definition showSchema : expr := Subquery Scalar AddOp None (SShow kSCHEMA).

(** [parseShowFromTable], parser/parser.go:1683-1702. *)
Definition parseShowFromTable : act (tablename * expr) :=
  let+ tn := parseTableName in
  let+ sn := intern_ (str "schema_name") in
  if tn_schema tn =? 0 then ARet (tn, BinaryExpr EqualOp (Ref [sn]) showSchema)
  else
    let+ s := name_ (tn_schema tn) in
    ARet (tn, BinaryExpr EqualOp (Ref [sn]) (Literal (VString s))).

(** [parseShow], parser/parser.go:1704-1841. *)
Definition parseShow : act stmt :=
  let+ t := scan_ in
  match t with
  | KIdent id | KReserved id =>
      if (id =? iCOLUMNS) || (id =? iCONSTRAINTS) then
        expectReserved [kFROM] ;+
        let+ '(tn, schemaTest) := parseShowFromTable in
        let+ tname := intern_ (str "table_name") in
        let+ s := name_ (tn_table tn) in
        ARet (selectFrom None (fromTable (tn_database tn) iMETADATA id)
                (Some (BinaryExpr AndOp (BinaryExpr EqualOp (Ref [tname]) (Literal (VString s))) schemaTest)))
      else if id =? iCONFIG then
        let+ nm := intern_ (str "name") in
        let+ vl := intern_ (str "value") in
        let+ by_ := intern_ (str "by") in
        let+ hd := intern_ (str "hidden") in
        ARet (selectFrom (Some [ExprResult (Ref [nm]) 0; ExprResult (Ref [vl]) 0; ExprResult (Ref [by_]) 0])
                (fromTable iSYSTEM iINFO iCONFIG)
                (Some (BinaryExpr EqualOp (Ref [hd]) (Literal (VBool false)))))
      else if id =? iDATABASES then
        ARet (selectFrom None (fromTable iSYSTEM iINFO iDATABASES) None)
      else if id =? iSCHEMAS then
        let+ from := optionalReserved [kFROM] in
        let+ db := (if from then expectIdentifier else ARet 0) in
        ARet (selectFrom None (fromTable db iMETADATA iSCHEMAS) None)
      else if id =? iTABLES then
        let+ from := optionalReserved [kFROM] in
        if from then
          let+ sn := parseSchemaName in
          let+ c := intern_ (str "schema_name") in
          let+ s := name_ (sn_schema sn) in
          ARet (selectFrom None (fromTable (sn_database sn) iMETADATA iTABLES)
                  (Some (BinaryExpr EqualOp (Ref [c]) (Literal (VString s)))))
        else
          let+ c := intern_ (str "schema_name") in
          ARet (selectFrom None (fromTable 0 iMETADATA iTABLES)
                  (Some (BinaryExpr EqualOp (Ref [c]) showSchema)))
      else ARet (SShow id)
  | _ => AError
  end.

(** Functions that contain expressions or subqueries; [subExpr] is
    [parseSubExpr], [fromItem] is [parseFromItem] (functions of [unit], as the tree of
    actions is not to be built until needed), and [n] is fuel for loops. *)
Section Nested.
  Variable n : nat.
  Variable subExpr : unit -> act expr.
  Variable fromItem : unit -> act fromitem.

  (** [parseExpr], parser/parser.go:1123-1125. *)
  Definition parseExpr_ : act expr := let+ e := subExpr tt in adjust e.

  (** [parseValues], parser/parser.go:1400-1429. *)
  Definition parseValues_ : act stmt :=
    aloop n (fun rows : list (list expr) =>
      expectTokens [tLParen] ;+
      let+ row := aloop n (fun row =>
        let+ e := parseExpr_ in
        let row := row ++ [e] in
        let+ r := expectTokens [tComma; tRParen] in
        if r =? tRParen then ARet (inr row) else ARet (inl row)) [] in
      if match rows with [] => false | r0 :: _ => negb (length r0 =? length row)%nat end then AError
      else
        let rows := rows ++ [row] in
        let+ comma := maybeToken tComma in
        if comma then ARet (inl rows) else ARet (inr (SValues rows))) [].

  (** [parseFromList], parser/parser.go:1611-1617. *)
  Definition parseFromList_ : act fromitem :=
    let+ fi := fromItem tt in
    aloop n (fun fi =>
      let+ comma := maybeToken tComma in
      if comma then
        let+ r := fromItem tt in
        ARet (inl (FromJoin fi r CrossJoin None []))
      else ARet (inr fi)) fi.

  (** The loop over the results of a [SELECT], parser/parser.go:1449-1477. *)
  Definition parseResults_ : act (list (selectresult expr)) :=
    aloop n (fun results =>
      let more (results : list (selectresult expr)) : act (list (selectresult expr) + list (selectresult expr)) :=
        let+ comma := maybeToken tComma in
        if comma then ARet (inl results) else ARet (inr results) in
      let expression : act (list (selectresult expr) + list (selectresult expr)) :=
        unscan_ ;+
        let+ e := parseExpr_ in
        let+ alias := parseAlias false in
        more (results ++ [ExprResult e alias]) in
      let+ t := scan_ in
      match t with
      | KIdent tbl =>
          let+ dot := maybeToken tDot in
          if dot then
            let+ star := maybeToken tStar in
            if star then more (results ++ [TableResult tbl])
            else unscan_ ;+ expression
          else expression
      | _ => expression
      end) [].

  (** The loops over expressions, parser/parser.go:1491-1496, and over columns to
      order by, 1506-1518. *)
  Definition parseGroupBy_ : act (list expr) :=
    aloop n (fun es =>
      let+ e := parseExpr_ in
      let+ comma := maybeToken tComma in
      if comma then ARet (inl (es ++ [e])) else ARet (inr (es ++ [e]))) [].
  Definition parseOrderBy_ : act (list (expr * bool)) :=
    aloop n (fun l =>
      let+ id := expectIdentifier in
      let+ desc := optionalReserved [kDESC] in
      (if desc then ARet tt else optionalReserved [kASC] ;+ ARet tt) ;+
      let l := l ++ [(Ref [id], desc)] in
      let+ comma := maybeToken tComma in
      if comma then ARet (inl l) else ARet (inr l)) [].

  (** [WHERE expr] and the like, e.g. parser/parser.go:1484-1486; nil if there is
      no keyword. *)
  Definition optionalExpr_ (kw : Z) : act (option expr) :=
    let+ b := optionalReserved [kw] in
    if b then (let+ e := parseExpr_ in ARet (Some e)) else ARet None.

  (** [parseSelect], parser/parser.go:1446-1522. *)
  Definition parseSelect_ : act stmt :=
    let+ star := maybeToken tStar in
    let+ results := (if star then ARet None else (let+ l := parseResults_ in ARet (Some l))) in
    let+ b := optionalReserved [kFROM] in
    let+ from := (if b then (let+ f := parseFromList_ in ARet (Some f)) else ARet None) in
    let+ cond := optionalExpr_ kWHERE in
    let+ b := optionalReserved [kGROUP] in
    let+ group := (if b then expectReserved [kBY] ;+ parseGroupBy_ else ARet []) in
    let+ having := optionalExpr_ kHAVING in
    let+ b := optionalReserved [kORDER] in
    let+ order := (if b then expectReserved [kBY] ;+ parseOrderBy_ else ARet []) in
    ARet (SSelect results from cond group having order).

  (** [optionalSubquery], parser/parser.go:999-1016; [None] is [nil, false]. *)
  Definition optionalSubquery_ : act (option stmt) :=
    let+ b := optionalReserved [kSELECT] in
    if b then (let+ s := parseSelect_ in ARet (Some s))
    else
      let+ b := optionalReserved [kVALUES] in
      if b then (let+ s := parseValues_ in ARet (Some s))
      else
        let+ b := optionalReserved [kSHOW] in
        if b then (let+ s := parseShow in ARet (Some s))
        else
          let+ b := optionalReserved [kTABLE] in
          if b then
            let+ tn := parseTableName in
            ARet (Some (selectFrom None (Some (FromTableAlias tn 0)) None))
          else ARet None.

  (** [parseSubquery], parser/parser.go:1290-1298. *)
  Definition parseSubquery_ : act stmt :=
    expectTokens [tLParen] ;+
    let+ o := optionalSubquery_ in
    match o with
    | None => AError
    | Some s => expectTokens [tRParen] ;+ ARet s
    end.

  (** The call of a function behind its name and [(], parser/parser.go:1201-1216. *)
  Definition parseCall_ (id : Z) : act expr :=
    let+ paren := maybeToken tRParen in
    if paren then ARet (SExpr id [])
    else
      let+ star := (if id =? iCOUNT then maybeToken tStar else ARet false) in
      if star then expectTokens [tRParen] ;+ ARet (SExpr iCOUNT_ALL [])
      else
        let+ args := aloop n (fun args =>
          let+ e := subExpr tt in
          let args := args ++ [e] in
          let+ paren := maybeToken tRParen in
          if paren then ARet (inr args) else expectTokens [tComma] ;+ ARet (inl args)) [] in
        ARet (SExpr id args).

  (** [ref [. ref]], parser/parser.go:1219-1223; the first identifier is read
      again from [p.sctx]. *)
  Definition parseRef_ : act expr :=
    let+ t := tok_ in
    let+ ids := aloop n (fun ids =>
      let+ dot := maybeToken tDot in
      if dot then
        let+ id := expectIdentifier in
        ARet (inl (ids ++ [id]))
      else ARet (inr ids)) [ident_of t] in
    ARet (Ref ids).

  (** The operand in front, parser/parser.go:1170-1241. *)
  Definition parseOperand_ : act expr :=
    let+ t := scan_ in
    match t with
    | KReserved id =>
        if id =? kTRUE then ARet (Literal (VBool true))
        else if id =? kFALSE then ARet (Literal (VBool false))
        else if id =? kNULL then ARet (Literal VNull)
        else if id =? kNOT then (let+ e := subExpr tt in ARet (UnaryExpr NotOp e))
        else if id =? kEXISTS then (let+ s := parseSubquery_ in ARet (Subquery ModelSql.Exists AddOp None s))
        else AError
    | KString s => ARet (Literal (VString s))
    | KBytes l => ARet (Literal (VBytes (slice_code l)))
    | KInteger i => ARet (Literal (VInt i))
    | KFloat p => ARet (Literal (VFloat p))
    | KIdent id =>
        let+ paren := maybeToken tLParen in
        if paren then parseCall_ id else parseRef_
    | _ =>
        if rune_of t =? tMinus then (let+ e := subExpr tt in ARet (UnaryExpr NegateOp e))
        else if rune_of t =? tLParen then
          let+ o := optionalSubquery_ in
          let+ e := match o with
                    | Some s => ARet (Subquery Scalar AddOp None s)
                    | None => (let+ e := subExpr tt in ARet (UnaryExpr NoOp e))
                    end in
          let+ t := scan_ in
          if rune_of t =? tRParen then ARet e else errorGot
        else errorGot
    end.

  (** What may follow an operand if it is no binary operator,
      parser/parser.go:1245-1271. *)
  Definition parsePostfix_ (e : expr) : act expr :=
    let+ b := optionalReserved [kIN; kNOT; kIS] in
    if b then
      let+ t := tok_ in
      if ident_of t =? kIN then
        let+ s := parseSubquery_ in ARet (Subquery Any EqualOp (Some e) s)
      else if ident_of t =? kNOT then
        let+ b := optionalReserved [kIN] in
        if b then
          let+ s := parseSubquery_ in ARet (Subquery All NotEqualOp (Some e) s)
        else unscan_ ;+ ARet e
      else
        let+ not := optionalReserved [kNOT] in
        expectReserved [kNULL] ;+
        let+ isnull := intern_ (str "is_null") in
        let e := SExpr isnull [e] in
        if not then ARet (UnaryExpr NotOp e) else ARet e
    else ARet e.

  (** [parseSubExpr], parser/parser.go:1169-1288. *)
  Definition subExprBody : act expr :=
    let+ e := parseOperand_ in
    let+ o := optionalBinaryOp in
    match o with
    | None => parsePostfix_ e
    | Some (op, bop) =>
        let+ b := optionalReserved [kANY; kSOME; kALL] in
        if b then
          if bop : bool then
            let+ t := tok_ in
            let+ s := parseSubquery_ in
            ARet (Subquery (if ident_of t =? kALL then All else Any) op (Some e) s)
          else AError
        else
          let+ r := subExpr tt in
          ARet (BinaryExpr op e r)
    end.

  (** [parseFromStmt], parser/parser.go:1619-1623. *)
  Definition parseFromStmt_ (s : stmt) : act fromitem :=
    expectTokens [tRParen] ;+
    let+ a := parseAlias true in
    let+ cols := parseColumnAliases n in
    ARet (FromStmt s a cols).

  (** The type of a join, parser/parser.go:1550-1571; [None] is [NoJoin]. *)
  Definition parseJoinType_ : act (option jointype) :=
    let outer (jt : jointype) : act (option jointype) :=
      optionalReserved [kOUTER] ;+ expectReserved [kJOIN] ;+ ARet (Some jt) in
    let+ b := optionalReserved [kJOIN] in
    if b then ARet (Some InnerJoin)
    else
      let+ b := optionalReserved [kINNER] in
      if b then expectReserved [kJOIN] ;+ ARet (Some InnerJoin)
      else
        let+ b := optionalReserved [kLEFT] in
        if b then outer LeftJoin
        else
          let+ b := optionalReserved [kRIGHT] in
          if b then outer RightJoin
          else
            let+ b := optionalReserved [kFULL] in
            if b then outer FullJoin
            else
              let+ b := optionalReserved [kCROSS] in
              if b then expectReserved [kJOIN] ;+ ARet (Some CrossJoin)
              else ARet None.

  (** [parseFromItem], parser/parser.go:1536-1609. *)
  Definition fromItemBody : act fromitem :=
    let+ paren := maybeToken tLParen in
    let+ fi :=
      (if paren then
         let+ o := optionalSubquery_ in
         match o with
         | Some s => parseFromStmt_ s
         | None =>
             let+ fi := parseFromList_ in
             expectTokens [tRParen] ;+ ARet fi
         end
       else parseTableAlias) in
    let+ jt := parseJoinType_ in
    match jt with
    | None => ARet fi
    | Some jt =>
        let+ r := fromItem tt in
        let+ b := optionalReserved [kON] in
        let+ '(on, cols) :=
          (if b then (let+ e := parseExpr_ in ARet (Some e, []))
           else
             let+ b := optionalReserved [kUSING] in
             if b then
               expectTokens [tLParen] ;+
               let+ cols := parseDistinctColumns n in ARet (None, cols)
             else ARet (None, [])) in
        match jt, on, cols with
        | CrossJoin, None, [] => ARet (FromJoin fi r jt None [])
        | CrossJoin, _, _ => AError
        | _, None, [] => AError
        | _, _, _ => ARet (FromJoin fi r jt on cols)
        end
    end.
End Nested.

(** [parseSubExpr], parser/parser.go:1169-1288, and [parseFromItem], 1536-1609. *)
Fixpoint parseSubExpr (n : nat) (_ : unit) : act expr :=
  match n with
  | O => AFuel
  | S n' => subExprBody n' (parseSubExpr n') (parseFromItem n')
  end
with parseFromItem (n : nat) (_ : unit) : act fromitem :=
  match n with
  | O => AFuel
  | S n' => fromItemBody n' (parseSubExpr n') (parseFromItem n')
  end.

(** [parseExpr], parser/parser.go:1123-1125, [parseSelect], 1446-1522, and
    [parseValues], 1400-1429. *)
Definition parseExpr (n : nat) : act expr := parseExpr_ (parseSubExpr n).
Definition parseSelect (n : nat) : act stmt := parseSelect_ n (parseSubExpr n) (parseFromItem n).
Definition parseValues (n : nat) : act stmt := parseValues_ n (parseSubExpr n).

(** The constraints of a column, parser/parser.go:773-850. *)
Definition columnConstraint (n : nat) (nam : Z) (st : ctable * coltype * option expr)
  : act (ctable * coltype * option expr + ctable * coltype * option expr) :=
  let '(s, ct, dflt) := st in
  let num := zlen (cb_cols s) - 1 in
  let+ cn := parseConstraintName in
  let+ b := optionalReserved [kDEFAULT] in
  if b then
    match dflt with
    | Some _ => AError
    | None =>
        let+ s := (if cn =? 0 then ARet s else addColumnConstraint s DefaultConstraint cn num) in
        let+ e := parseExpr n in
        ARet (inl (s, ct, Some e))
    end
  else
    let+ b := optionalReserved [kNOT] in
    if b then
      expectReserved [kNULL] ;+
      if ct_notnull ct then AError
      else
        let+ s := (if cn =? 0 then ARet s else addColumnConstraint s NotNullConstraint cn num) in
        ARet (inl (s, set_notnull ct, dflt))
    else
      let+ b := optionalReserved [kPRIMARY] in
      if b then
        expectReserved [kKEY] ;+
        let+ cn := (if cn =? 0 then (let+ s := name_ nam in intern_ (s ++ str "_primary")) else ARet cn) in
        let+ s := addKeyConstraint s PrimaryConstraint cn (columnKey nam) in
        ARet (inl (s, ct, dflt))
      else
        let+ b := optionalReserved [kUNIQUE] in
        if b then
          let+ cn := (if cn =? 0 then (let+ s := name_ nam in intern_ (s ++ str "_unique")) else ARet cn) in
          let+ s := addKeyConstraint s UniqueConstraint cn (columnKey nam) in
          ARet (inl (s, ct, dflt))
        else
          let+ b := optionalReserved [kCHECK] in
          if b then
            expectTokens [tLParen] ;+
            let+ e := parseExpr n in
            expectTokens [tRParen] ;+
            ARet (inl (add_cst s (checkConstraint cn num e), ct, dflt))
          else
            let+ b := optionalReserved [kREFERENCES] in
            if b then
              let+ rtn := parseTableName in
              let+ paren := maybeToken tLParen in
              let+ refCols :=
                (if paren then (let+ id := expectIdentifier in expectTokens [tRParen] ;+ ARet [id])
                 else ARet []) in
              let+ fk := parseOnActions n (newForeignKey cn [nam] rtn refCols) in
              ARet (inl (add_fk s fk, ct, dflt))
            else if cn =? 0 then ARet (inr (s, ct, dflt)) else AError.

(** [parseColumn], parser/parser.go:748-854. *)
Definition parseColumn (n : nat) (s : ctable) : act ctable :=
  let+ nam := expectIdentifier in
  if mem nam (cb_cols s) then AError
  else
    let s := add_col s nam in
    let+ ct := parseColumnType in
    let+ '(s, ct, dflt) := aloop n (columnConstraint n nam) (s, ct, None) in
    ARet (add_type s ct dflt).

(** The body of the loop of [parseCreateDetails], parser/parser.go:578-609. *)
Definition createDetail (n : nat) (s : ctable) : act ctable :=
  let+ cn := parseConstraintName in
  let+ b := optionalReserved [kPRIMARY] in
  if b then
    expectReserved [kKEY] ;+
    let+ key := parseKey n true in
    let+ cn := makeKeyConstraintName cn key (str "primary") in
    addKeyConstraint s PrimaryConstraint cn key
  else
    let+ b := optionalReserved [kUNIQUE] in
    if b then
      let+ key := parseKey n true in
      let+ cn := makeKeyConstraintName cn key (str "unique") in
      addKeyConstraint s UniqueConstraint cn key
    else
      let+ b := optionalReserved [kCHECK] in
      if b then
        expectTokens [tLParen] ;+
        let+ e := parseExpr n in
        expectTokens [tRParen] ;+
        ARet (add_cst s (checkConstraint cn (-1) e))
      else
        let+ b := optionalReserved [kFOREIGN] in
        if b then
          expectReserved [kKEY] ;+
          let+ fk := parseForeignKey n cn in
          ARet (add_fk s fk)
        else if cn =? 0 then parseColumn n s else AError.

(** [parseCreateDetails], parser/parser.go:561-616. *)
Definition parseCreateDetails (n : nat) : act ctable :=
  aloop n (fun s =>
    let+ s := createDetail n s in
    let+ r := expectTokens [tComma; tRParen] in
    if r =? tRParen then ARet (inr s) else ARet (inl s)) noTable.

(** [IF NOT EXISTS], parser/parser.go:442-446, 934-938, and [IF EXISTS], 888-892,
    967-970, 989-992, 1913-1916, 1934-1937. *)
Definition ifNotExists : act bool :=
  let+ b := optionalReserved [kIF] in
  if b then expectReserved [kNOT] ;+ expectReserved [kEXISTS] ;+ ARet true else ARet false.
Definition ifExists : act bool :=
  let+ b := optionalReserved [kIF] in
  if b then expectReserved [kEXISTS] ;+ ARet true else ARet false.

(** [parseCreateTable], parser/parser.go:438-452. *)
Definition parseCreateTable (n : nat) : act stmt :=
  let+ ine := ifNotExists in
  let+ tn := parseTableName in
  expectTokens [tLParen] ;+
  let+ s := parseCreateDetails n in
  ARet (SCreateTable tn (cb_cols s) (cb_types s) (cb_defaults s) ine (cb_csts s) (cb_fks s)).

(** One action of [parseAlterTable], parser/parser.go:872-919. *)
Definition alterAction (n : nat) : act alteraction :=
  let+ kw := expectReserved [kADD; kDROP; kALTER] in
  if kw =? kADD then
    let+ cn := parseConstraintName in
    expectReserved [kFOREIGN] ;+
    expectReserved [kKEY] ;+
    let+ fk := parseForeignKey n cn in
    ARet (AddForeignKey fk)
  else if kw =? kDROP then
    expectReserved [kCONSTRAINT] ;+
    let+ ie := ifExists in
    let+ nam := expectIdentifier in
    ARet (DropConstraint nam ie)
  else
    optionalReserved [kCOLUMN] ;+
    let+ nam := expectIdentifier in
    expectReserved [kDROP] ;+
    let+ kw := expectReserved [kDEFAULT; kNOT] in
    if kw =? kDEFAULT then ARet (DropColumnConstraint nam DefaultConstraint)
    else expectReserved [kNULL] ;+ ARet (DropColumnConstraint nam NotNullConstraint).

(** [parseAlterTable], parser/parser.go:856-926. *)
Definition parseAlterTable (n : nat) : act stmt :=
  let+ tn := parseTableName in
  aloop n (fun actions =>
    let+ a := alterAction n in
    let actions := actions ++ [a] in
    let+ comma := maybeToken tComma in
    if comma then ARet (inl actions) else ARet (inr (SAlterTable tn actions))) [].

(** [parseCreateIndex], parser/parser.go:928-951. *)
Definition parseCreateIndex (n : nat) (unique : bool) : act stmt :=
  let+ ine := ifNotExists in
  let+ index := expectIdentifier in
  expectReserved [kON] ;+
  let+ tn := parseTableName in
  let+ b := optionalReserved [kUSING] in
  (if b then
     let+ id := expectIdentifier in
     if id =? iBTREE then ARet tt else errorGot
   else ARet tt) ;+
  let+ key := parseKey n unique in
  ARet (SCreateIndex index tn key ine).

(** [parseDelete], parser/parser.go:953-962. *)
Definition parseDelete (n : nat) : act stmt :=
  let+ tn := parseTableName in
  let+ cond := optionalExpr_ (parseSubExpr n) kWHERE in
  ARet (SDelete tn cond).

(** [parseDropTable], parser/parser.go:964-984. *)
Definition parseDropTable (n : nat) : act stmt :=
  let+ ie := ifExists in
  let+ tn := parseTableName in
  let+ tables := aloop n (fun tables =>
    let+ comma := maybeToken tComma in
    if comma then
      let+ tn := parseTableName in
      ARet (inl (tables ++ [tn]))
    else ARet (inr tables)) [tn] in
  let+ cascade := optionalReserved [kCASCADE] in
  (if cascade then ARet tt else optionalReserved [kRESTRICT] ;+ ARet tt) ;+
  ARet (SDropTable ie cascade tables).

(** [parseDropIndex], parser/parser.go:986-997. *)
Definition parseDropIndex : act stmt :=
  let+ ie := ifExists in
  let+ index := expectIdentifier in
  expectReserved [kON] ;+
  let+ tn := parseTableName in
  ARet (SDropIndex tn index ie).

(** [DEFAULT] or an expression, parser/parser.go:1332-1338, 1635-1641. *)
Definition exprOrDefault (n : nat) : act (option expr) :=
  let+ t := scan_ in
  if is_reserved t [kDEFAULT] then ARet None
  else
    unscan_ ;+
    let+ e := parseExpr n in
    ARet (Some e).

(** [parseInsert], parser/parser.go:1300-1353. *)
Definition parseInsert (n : nat) : act stmt :=
  let+ tn := parseTableName in
  let+ paren := maybeToken tLParen in
  let+ cols := (if paren then parseDistinctColumns n else ARet []) in
  expectReserved [kVALUES] ;+
  aloop n (fun rows =>
    expectTokens [tLParen] ;+
    let+ row := aloop n (fun row =>
      let+ e := exprOrDefault n in
      let row := row ++ [e] in
      let+ r := expectTokens [tComma; tRParen] in
      if r =? tRParen then ARet (inr row) else ARet (inl row)) [] in
    let rows := rows ++ [row] in
    let+ comma := maybeToken tComma in
    if comma then ARet (inl rows) else ARet (inr (SInsertValues tn cols rows))) [].

(** [parseCopy], parser/parser.go:1355-1398. *)
Definition parseCopy (n : nat) : act stmt :=
  let+ tn := parseTableName in
  let+ paren := maybeToken tLParen in
  let+ cols := (if paren then parseDistinctColumns n else ARet []) in
  expectReserved [kFROM] ;+
  let+ id := expectIdentifier in
  if negb (id =? iSTDIN) then AError
  else
    let+ b := optionalReserved [kDELIMITER] in
    let+ delim :=
      (if b then
         let+ t := scan_ in
         match t with
         | KString [c] => ARet (bz c)
         | _ => AError
         end
       else ARet 9) in
    AReader (fun line => ARet (SCopy tn cols line delim)).

(** [parseUpdate], parser/parser.go:1625-1653. *)
Definition parseUpdate (n : nat) : act stmt :=
  let+ tn := parseTableName in
  expectReserved [kSET] ;+
  let+ updates := aloop n (fun l =>
    let+ id := expectIdentifier in
    expectTokens [tEqual] ;+
    let+ e := exprOrDefault n in
    let l := l ++ [(id, e)] in
    let+ comma := maybeToken tComma in
    if comma then ARet (inl l) else ARet (inr l)) [] in
  let+ cond := optionalExpr_ (parseSubExpr n) kWHERE in
  ARet (SUpdate tn updates cond).

(** [parseOptions], parser/parser.go:1861-1895. *)
Fixpoint set_option (l : list (Z * bytes)) (k : Z) (v : bytes) : list (Z * bytes) :=
  match l with
  | [] => [(k, v)]
  | (k', v') :: l' => if k' =? k then (k, v) :: l' else (k', v') :: set_option l' k v
  end.
Section WithFloatLib.
  Context {X : FloatLib}.
  Definition parseOptions (n : nat) : act (list (Z * bytes)) :=
    aloop n (fun options =>
      let+ t := scan_ in
      match t with
      | KIdent opt =>
          maybeToken tEqual ;+
          let+ t := scan_ in
          let+ val :=
            match t with
            | KIdent id => name_ id
            | KString s => ARet s
            | KBytes l => ABytes l ARet
            | KInteger i => ARet (format_int i)
            | KFloat p => ARet (x_format_float p)
            | _ => AError
            end in
          ARet (inl (set_option options opt val))
      | _ =>
          unscan_ ;+
          match options with
          | [] => AError
          | _ => ARet (inr options)
          end
      end) [].

  (** [parseCreateDatabase], parser/parser.go:1897-1907. *)
  Definition parseCreateDatabase (n : nat) : act stmt :=
    let+ db := expectIdentifier in
    let+ b := optionalReserved [kWITH] in
    let+ options := (if b then parseOptions n else ARet []) in
    ARet (SCreateDatabase db options).
End WithFloatLib.

(** [fmt.Sprintf("%v", f)] for a float64 (types/value.go:114) is not modelled. *)
Class PrintLib : Type := { x_print_float : Z -> bytes }.

(** [BytesValue.String], types/value.go:159-175. *)
Definition hexDigit (d : Z) : byte := zb (if d <? 10 then 48 + d else 87 + d).
Definition bytesString (b : bytes) : bytes :=
  str "'\x" ++ flat_map (fun v => [hexDigit (bz v / 16); hexDigit (bz v mod 16)]) b ++ str "'".

Section Parser.
  Context {X : FloatLib} {P : PrintLib}.

  (** The end of [parseSet] and [parseUse], parser/parser.go:1670-1678,
      1848-1856: [l.Value.String()] panics for the nil of NULL.  [e.String()] of
      what is no literal does not panic. *)
  Definition literalText (e : expr) : act bytes :=
    match e with
    | Literal v =>
        match v with
        | VString s => ARet s
        | VNull => ACrash
        | VBool b => ARet (if b then str "true" else str "false")
        | VInt i => ARet (format_int i)
        | VFloat p => ARet (x_print_float p)
        | VBytes c => ABytes (slice_decode c) (fun b => ARet (bytesString b))
        end
    | _ => AError
    end.

  (** [parseSet], parser/parser.go:1655-1681. *)
  Definition parseSet (n : nat) : act stmt :=
    let+ db := optionalReserved [kDATABASE] in
    let+ var :=
      (if db then ARet kDATABASE
       else
         let+ sc := optionalReserved [kSCHEMA] in
         if sc then ARet kSCHEMA else expectIdentifier) in
    let+ eq := maybeToken tEqual in
    (if eq then ARet tt else expectReserved [kTO] ;+ ARet tt) ;+
    let+ e := parseExpr n in
    let+ v := literalText e in
    ARet (SSet var v).

  (** [parseUse], parser/parser.go:1843-1859. *)
  Definition parseUse (n : nat) : act stmt :=
    let+ e := parseExpr n in
    let+ v := literalText e in
    ARet (SSet kDATABASE v).

  (** [parseDropDatabase], parser/parser.go:1909-1920. *)
  Definition parseDropDatabase : act stmt :=
    let+ ie := ifExists in
    let+ db := expectIdentifier in
    ARet (SDropDatabase ie db []).

  (** [parseCreateSchema], parser/parser.go:1922-1928. *)
  Definition parseCreateSchema : act stmt :=
    let+ sn := parseSchemaName in ARet (SCreateSchema sn).

  (** [parseDropSchema], parser/parser.go:1930-1941. *)
  Definition parseDropSchema : act stmt :=
    let+ ie := ifExists in
    let+ sn := parseSchemaName in
    ARet (SDropSchema ie sn).

  (** [parseExplain], parser/parser.go:1943-1955. *)
  Definition parseExplain (n : nat) : act stmt :=
    let+ verbose := optionalReserved [kVERBOSE] in
    expectReserved [kSELECT] ;+
    let+ s := parseSelect n in
    ARet (SExplain s verbose).

  (** [parseStmt], parser/parser.go:246-367, behind the keyword; nil is [None]. *)
  Definition parseStmtOf (n : nat) (kw : Z) : act (option stmt) :=
    let some (g : act stmt) : act (option stmt) := let+ s := g in ARet (Some s) in
    if kw =? kALTER then expectReserved [kTABLE] ;+ some (parseAlterTable n)
    else if kw =? kBEGIN then ARet (Some SBegin)
    else if kw =? kCOMMIT then ARet (Some SCommit)
    else if kw =? kCOPY then some (parseCopy n)
    else if kw =? kCREATE then
      let+ kw := expectReserved [kDATABASE; kINDEX; kSCHEMA; kTABLE; kUNIQUE] in
      if kw =? kDATABASE then some (parseCreateDatabase n)
      else if kw =? kINDEX then some (parseCreateIndex n false)
      else if kw =? kSCHEMA then some parseCreateSchema
      else if kw =? kTABLE then some (parseCreateTable n)
      else expectReserved [kINDEX] ;+ some (parseCreateIndex n true)
    else if kw =? kDELETE then expectReserved [kFROM] ;+ some (parseDelete n)
    else if kw =? kDROP then
      let+ kw := expectReserved [kDATABASE; kINDEX; kSCHEMA; kTABLE] in
      if kw =? kDATABASE then some parseDropDatabase
      else if kw =? kINDEX then some parseDropIndex
      else if kw =? kSCHEMA then some parseDropSchema
      else some (parseDropTable n)
    else if kw =? kEXPLAIN then some (parseExplain n)
    else if kw =? kINSERT then expectReserved [kINTO] ;+ some (parseInsert n)
    else if kw =? kROLLBACK then ARet (Some SRollback)
    else if kw =? kSELECT then some (parseSelect n)
    else if kw =? kSET then some (parseSet n)
    else if kw =? kSHOW then some parseShow
    else if kw =? kSTART then expectReserved [kTRANSACTION] ;+ ARet (Some SBegin)
    else if kw =? kUPDATE then some (parseUpdate n)
    else if kw =? kUSE then some (parseUse n)
    else if kw =? kVALUES then some (parseValues n)
    else ARet None.

  (** The keywords a statement may start with, parser/parser.go:251-272. *)
  Definition stmtKeywords : list Z :=
    [kALTER; kBEGIN; kCOMMIT; kCOPY; kCREATE; kDELETE; kDETACH; kDROP; kEXECUTE; kEXPLAIN;
     kINSERT; kPREPARE; kROLLBACK; kSELECT; kSET; kSHOW; kSTART; kUPDATE; kUSE; kVALUES].

  (** [parseStmt], parser/parser.go:246-367. *)
  Definition parseStmt (n : nat) : act (option stmt) :=
    let+ b := maybeToken tEndOfStatement in
    if b then ARet None
    else
      let+ kw := expectReserved stmtKeywords in
      parseStmtOf n kw.

  (** The last lines of [Parse], parser/parser.go:67-69. *)
  Definition parseWhole (n : nat) : act (option stmt) :=
    let+ s := parseStmt n in
    expectEndOfStatement ;+ ARet s.
End Parser.

(** [Parser], parser/parser.go:17-25: [lookBack] has three entries, [sctx] points
    to entry [current].  [scanned] is not used. *)
Record parser : Set := {
  p_scanner : scanner;
  p_lookBack : list sctx;
  p_current : nat;
  p_unscanned : nat;
  p_failed : bool
}.

(** [lookBackAmount], parser/parser.go:15. *)
Definition lookBackAmount : nat := 3.

(** [NewParser], parser/parser.go:27-31. *)
Definition newParser (ids : idtable) (input : list Z) : parser :=
  {| p_scanner := scannerInit ids input; p_lookBack := repeat c_zero lookBackAmount;
     p_current := 0; p_unscanned := 0; p_failed := false |}.

(** [*p.sctx] (e.g. parser/parser.go:73). *)
Definition p_sctx (p : parser) : sctx := nth (p_current p) (p_lookBack p) c_zero.
Definition p_tok (p : parser) : tok := tok_of (p_sctx p).

(** Changing one entry of [lookBack].  Also the scanner and [failed]: the
    fields of parser/parser.go:17-25. *)
Fixpoint set_nth {A} (n : nat) (a : A) (l : list A) : list A :=
  match n, l with
  | O, _ :: l' => a :: l'
  | S n', x :: l' => x :: set_nth n' a l'
  | _, [] => []
  end.

(** The fields of parser/parser.go:18, 24. *)
Definition set_scanner (p : parser) (s : scanner) : parser :=
  {| p_scanner := s; p_lookBack := p_lookBack p; p_current := p_current p;
     p_unscanned := p_unscanned p; p_failed := p_failed p |}.
Definition set_failed (p : parser) (f : bool) : parser :=
  {| p_scanner := p_scanner p; p_lookBack := p_lookBack p; p_current := p_current p;
     p_unscanned := p_unscanned p; p_failed := f |}.

(** How a function of the parser ends; [Stuck] is the end of the fuel.  A
    return or a panic that is recovered, parser/parser.go:33-74. *)
Inductive outcome_ (S A : Type) : Type :=
  | Done (a : A) (s : S)
  | Failed (s : S)
  | Crashed (s : S)
  | Stuck.
Arguments Done {S A}. Arguments Failed {S A}. Arguments Crashed {S A}. Arguments Stuck {S A}.

Section Run.
  Context {X : FloatLib} {L : CaseLib} {U : RuneLib} {B : BufLib} {P : PrintLib}.

  (** [scanRune], parser/parser.go:76-89; the second part of the result is that
      there is an error. *)
  Definition scanRune (p : parser) : option (parser * bool) :=
    let cur := ((p_current p + 1) mod lookBackAmount)%nat in
    match p_unscanned p with
    | S u =>
        Some ({| p_scanner := p_scanner p; p_lookBack := p_lookBack p; p_current := cur;
                 p_unscanned := u; p_failed := p_failed p |}, false)
    | O =>
        match Scan (p_scanner p) (nth cur (p_lookBack p) c_zero) with
        | None => None
        | Some (s, c) =>
            Some ({| p_scanner := s; p_lookBack := set_nth cur c (p_lookBack p); p_current := cur;
                     p_unscanned := 0; p_failed := p_failed p |},
                  match tok_of c with KError true => true | _ => false end)
        end
    end.

  (** [unscan], parser/parser.go:99-110; [None] is the panic about too much
      look-back, whose value is no error, so that [r.(error)] panics as well (61). *)
  Definition unscan (p : parser) : option parser :=
    if (lookBackAmount <? S (p_unscanned p))%nat then None
    else
      Some {| p_scanner := p_scanner p; p_lookBack := p_lookBack p;
              p_current := match p_current p with O => (lookBackAmount - 1)%nat | S c => c end;
              p_unscanned := S (p_unscanned p); p_failed := p_failed p |}.

  (** Carrying out the actions; [scan], parser/parser.go:91-97, panics with the
      error of [scanRune]. *)
  Fixpoint run {A} (g : act A) (p : parser) : outcome_ parser A :=
    match g with
    | ARet a => Done a p
    | AError => Failed p
    | ACrash => Crashed p
    | AFuel => Stuck
    | AScan k =>
        match scanRune p with
        | None => Stuck
        | Some (p, true) => Failed p
        | Some (p, false) => run (k (p_tok p)) p
        end
    | AUnscan k =>
        match unscan p with
        | None => Crashed p
        | Some p => run k p
        end
    | ATok k => run (k (p_tok p)) p
    | AIntern s k =>
        let '(t, id) := ID (s_ids (p_scanner p)) s false in
        run (k id) (set_scanner p (set_ids (p_scanner p) t))
    | AName id k => run (k (idString (s_ids (p_scanner p)) id)) p
    | ABytes l k => run (k (b_look (s_buffer (p_scanner p)) l)) p
    | AReader k =>
        let s := RuneReader (p_scanner p) in
        run (k (s_line s)) (set_scanner p s)
    end.

  (** What [Parse] returns: a statement, which may be nil, an error, or the end
      of the file. *)
  Inductive parsed : Type :=
  | PStmt (s : option stmt) (p : parser)
  | PErr (p : parser)
  | PEOF (p : parser)
  | PCrash
  | PStuck.

  (** The loop of [Parse], parser/parser.go:43-52, with fuel; [None] is that an
      end of statement was found. *)
  Fixpoint skipStmt (n : nat) (p : parser) : option parsed * parser :=
    match n with
    | O => (Some PStuck, p)
    | S n' =>
        match scanRune p with
        | None => (Some PStuck, p)
        | Some (p, true) => (Some (PErr p), p)
        | Some (p, false) =>
            match p_tok p with
            | KEOF => (Some (PEOF p), p)
            | KEnd => (None, p)
            | _ => skipStmt n' p
            end
        end
    end.

  (** Fuel for one statement. *)
  Definition parse_fuel (p : parser) : nat := (8 + length (s_in (p_scanner p)) + p_unscanned p)%nat.

  (** [Parse], parser/parser.go:33-70, up to the bytes of literals. *)
  Definition ParseTree (p : parser) : parsed :=
    match scanRune p with
    | None => PStuck
    | Some (p, true) => PErr p
    | Some (p, false) =>
        match p_tok p with
        | KEOF => PEOF p
        | _ =>
            match unscan p with
            | None => PCrash
            | Some p =>
                let '(o, p) := if p_failed p then skipStmt (parse_fuel p) p else (None, p) in
                match o with
                | Some r => r
                | None =>
                    let p := set_failed p false in
                    match run (parseWhole (parse_fuel p)) p with
                    | Done s p => PStmt s p
                    | Failed p => PErr (set_failed p (match p_tok p with KEnd => false | _ => true end))
                    | Crashed _ => PCrash
                    | Stuck => PStuck
                    end
                end
            end
        end
    end.

  (** The bytes of literals, when the statement is returned: a literal is a slice
      of the scanner's buffer (parser/parser.go:1190, parser/scanner/scanner.go:471,
      573), and what is scanned behind it may have been written there. *)
  Definition deref_value (b : buffer) (v : value) : value :=
    match v with VBytes c => VBytes (b_look b (slice_decode c)) | _ => v end.
  Fixpoint deref_expr (b : buffer) (e : expr) : expr :=
    match e with
    | Literal v => Literal (deref_value b v)
    | Ref ids => Ref ids
    | SExpr nam args => SExpr nam (map (deref_expr b) args)
    | UnaryExpr op e => UnaryExpr op (deref_expr b e)
    | BinaryExpr op l r => BinaryExpr op (deref_expr b l) (deref_expr b r)
    | Subquery op eop e s => Subquery op eop (option_map (deref_expr b) e) (deref_stmt b s)
    end
  with deref_stmt (b : buffer) (s : stmt) : stmt :=
    match s with
    | SExplain s v => SExplain (deref_stmt b s) v
    | SCreateTable tn cols types defaults ine csts fks =>
        SCreateTable tn cols types (map (option_map (deref_expr b)) defaults) ine
          (map (fun c => {| con_type := con_type c; con_name := con_name c; con_colnum := con_colnum c;
                            con_key := con_key c; con_check := option_map (deref_expr b) (con_check c) |}) csts)
          fks
    | SDelete tn w => SDelete tn (option_map (deref_expr b) w)
    | SInsertValues tn cols rows => SInsertValues tn cols (map (map (option_map (deref_expr b))) rows)
    | SUpdate tn u w =>
        SUpdate tn (map (fun p => (fst p, option_map (deref_expr b) (snd p))) u) (option_map (deref_expr b) w)
    | SValues rows => SValues (map (map (deref_expr b)) rows)
    | SSelect r f w g h o =>
        SSelect
          (option_map (map (fun r => match r with
                                     | TableResult t => TableResult t
                                     | ExprResult e a => ExprResult (deref_expr b e) a
                                     end)) r)
          (option_map (deref_from b) f) (option_map (deref_expr b) w) (map (deref_expr b) g)
          (option_map (deref_expr b) h) (map (fun p => (deref_expr b (fst p), snd p)) o)
    | _ => s
    end
  with deref_from (b : buffer) (f : fromitem) : fromitem :=
    match f with
    | FromStmt s a c => FromStmt (deref_stmt b s) a c
    | FromJoin l r jt on c => FromJoin (deref_from b l) (deref_from b r) jt (option_map (deref_expr b) on) c
    | _ => f
    end.

  (** [Parse], parser/parser.go:33-70. *)
  Definition Parse (p : parser) : parsed :=
    match ParseTree p with
    | PStmt s p => PStmt (option_map (deref_stmt (s_buffer (p_scanner p))) s) p
    | r => r
    end.

  (** [ParseExpr], parser/parser.go:1018-1031. *)
  Definition ParseExpr (p : parser) : outcome_ parser expr :=
    match run (parseExpr (parse_fuel p)) p with
    | Done e p => Done (deref_expr (s_buffer (p_scanner p)) e) p
    | r => r
    end.
End Run.
