(** testutil/parse.go and rows.go: values, rows, identifiers and columns written
    as text for tests, and the comparison of rows.

    The argument [rs io.RuneScanner] is a [strings.Reader] (testutil/parse.go:260,
    268, 438, 446) as the list of runes that are left to read and the one read
    last, if it may be unread.  The texts of errors are not modelled: a panic of
    [panicError], which the exported functions recover, is [None].  Runtime errors
    do not occur. *)

From Verif Require Export ModelPrint.

(** The reader: [strings.Reader].  As made in testutil/parse.go:260, 268,
    438, 446. *)
Record reader : Set := { r_ahead : list Z; r_last : option Z }.
Definition newReader (text : list Z) : reader := {| r_ahead := text; r_last := None |}.

(** [ReadRune]; no rune is the error [io.EOF].  Called in
    testutil/parse.go:32, 44, 77, 151, 171. *)
Definition readRune_ (rs : reader) : option Z * reader :=
  match r_ahead rs with
  | [] => (None, {| r_ahead := []; r_last := None |})
  | r :: l => (Some r, {| r_ahead := l; r_last := Some r |})
  end.

(** [UnreadRune]; its error is ignored by all callers.  Called in
    testutil/parse.go:90, 199, 293, 348. *)
Definition unreadRune_ (rs : reader) : reader :=
  match r_last rs with
  | Some r => {| r_ahead := r :: r_ahead rs; r_last := None |}
  | None => rs
  end.

(** [readRune], testutil/parse.go:31-40. *)
Definition readOne (rs : reader) : option (Z * reader) :=
  match readRune_ rs with
  | (None, _) => None
  | (Some r, rs) => Some (r, rs)
  end.

Section Testutil.
  Context {X : FloatLib} {L : CaseLib} {U : RuneLib}.

  (** [skipWhitespace], testutil/parse.go:42-57; the rune is [None] if it returns
      [0, true].  The loop reads one rune each time. *)
  Fixpoint skipLoop (l : list Z) : option Z * reader :=
    match l with
    | [] => (None, {| r_ahead := []; r_last := None |})
    | r :: l' => if x_is_space r then skipLoop l' else (Some r, {| r_ahead := l'; r_last := Some r |})
    end.
  Definition skipWhitespace (rs : reader) (eofAllowed : bool) : option (option Z * reader) :=
    match skipLoop (r_ahead rs) with
    | (None, rs) => if eofAllowed then Some (None, rs) else None
    | (Some r, rs) => Some (Some r, rs)
    end.

  (** The same where the end is not allowed and the second result is ignored. *)
  Definition skipTo (rs : reader) : option (Z * reader) :=
    match skipLoop (r_ahead rs) with
    | (None, _) => None
    | (Some r, rs) => Some (r, rs)
    end.

  (** [expectRune], testutil/parse.go:59-68. *)
  Definition expectRune (rs : reader) (e : Z) (eofAllowed : bool) : option (bool * reader) :=
    match skipWhitespace rs eofAllowed with
    | None => None
    | Some (None, rs) => Some (true, rs)
    | Some (Some r, rs) => if r =? e then Some (false, rs) else None
    end.

  (** [readRunes], testutil/parse.go:70-96: what is written to [buf] and the
      reader; [buf] is UTF-8. *)
  Fixpoint readLoop (l : list Z) (eofAllowed : bool) (pred : Z -> bool) : option (bytes * reader) :=
    match l with
    | [] => if eofAllowed then Some ([], {| r_ahead := []; r_last := None |}) else None
    | r :: l' =>
        if pred r then
          match readLoop l' eofAllowed pred with
          | Some (s, rs) => Some (utf8_encode r ++ s, rs)
          | None => None
          end
        else Some ([], unreadRune_ {| r_ahead := l'; r_last := Some r |})
    end.
  Definition readRunes (rs : reader) (r : Z) (eofAllowed : bool) (pred : Z -> bool) : option (bytes * reader) :=
    match readLoop (r_ahead rs) eofAllowed pred with
    | Some (s, rs) => Some ((if r =? 0 then [] else utf8_encode r) ++ s, rs)
    | None => None
    end.

  (** [hexDigit], testutil/parse.go:98-105, in a byte. *)
  Definition hexValue (ch : byte) : Z :=
    let c := bz ch in
    if (48 <=? c) && (c <=? 57) then (c - 48) mod 256
    else if (97 <=? c) && (c <=? 102) then (c - 97 + 10) mod 256
    else (c - 65 + 10) mod 256.

  (** The loop over the digits, testutil/parse.go:159-162, for a text of even
      length. *)
  Fixpoint hexLoop (s : bytes) : bytes :=
    match s with
    | a :: b :: s' => zb (Z.lor ((hexValue a * 16) mod 256) (hexValue b)) :: hexLoop s'
    | _ => []
    end.

  (** [parseValue], testutil/parse.go:107-174. *)
  Definition parseValue (rs : reader) : option (value * reader) :=
    match skipTo rs with
    | None => None
    | Some (r, rs) =>
        if x_is_digit r || (r =? 46) then
          match readRunes rs r true (fun r => x_is_digit r || (r =? 46)) with
          | None => None
          | Some (s, rs) =>
              match parse_int s with
              | Some i => Some (VInt i, rs)
              | None => match x_parse_float s with Some p => Some (VFloat p, rs) | None => None end
              end
          end
        else if x_is_letter r then
          match readRunes rs r true x_is_letter with
          | None => None
          | Some (s, rs) =>
              let s := x_to_lower s in
              if bytes_eqb s (str "true") then Some (VBool true, rs)
              else if bytes_eqb s (str "false") then Some (VBool false, rs)
              else if bytes_eqb s (str "null") then Some (VNull, rs)
              else None
          end
        else if negb (r =? 39) then None
        else
          match readOne rs with
          | None => None
          | Some (r, rs) =>
              if r =? 92 then
                match readOne rs with
                | None => None
                | Some (r, rs) =>
                    if negb (r =? 120) && negb (r =? 88) then None
                    else
                      match readRunes rs 0 false (fun r => negb (r =? 39)) with
                      | None => None
                      | Some (s, rs) =>
                          let rs := snd (readRune_ rs) in
                          if negb (Z.of_nat (length s) mod 2 =? 0) then None
                          else Some (VBytes (hexLoop s), rs)
                      end
                end
              else if r =? 39 then Some (VString [], rs)
              else
                match readRunes rs r false (fun r => negb (r =? 39)) with
                | None => None
                | Some (s, rs) => Some (VString s, snd (readRune_ rs))
                end
          end
    end.

  (** The loop of [parseRow], testutil/parse.go:197-209; [n] bounds its rounds. *)
  Fixpoint parseRowLoop (n : nat) (rs : reader) : option (row * reader) :=
    match n with
    | O => None
    | S n' =>
        match skipTo rs with
        | None => None
        | Some (_, rs) =>
            match parseValue (unreadRune_ rs) with
            | None => None
            | Some (v, rs) =>
                match skipTo rs with
                | None => None
                | Some (r, rs) =>
                    if r =? 41 then Some ([v], rs)
                    else if negb (r =? 44) then None
                    else
                      match parseRowLoop n' rs with
                      | None => None
                      | Some (vs, rs) => Some (v :: vs, rs)
                      end
                end
            end
        end
    end.

  (** [parseRow], testutil/parse.go:191-212; every round reads a rune. *)
  Definition parseRow (rs : reader) : option (row * reader) :=
    match expectRune rs 40 false with
    | None => None
    | Some (_, rs) => parseRowLoop (S (length (r_ahead rs))) rs
    end.

  (** [parseRows], testutil/parse.go:229-242. *)
  Fixpoint parseRowsLoop (n : nat) (rs : reader) : option (list row) :=
    match n with
    | O => None
    | S n' =>
        match parseRow rs with
        | None => None
        | Some (r, rs) =>
            match expectRune rs 44 true with
            | None => None
            | Some (true, _) => Some [r]
            | Some (false, rs) =>
                match parseRowsLoop n' rs with
                | None => None
                | Some l => Some (r :: l)
                end
            end
        end
    end.
  Definition parseRows_ (rs : reader) : option (list row) := parseRowsLoop (S (length (r_ahead rs))) rs.

  (** [ParseValue], [ParseRow], [ParseRows], testutil/parse.go:176-189, 214-227,
      244-257: [None] is an error.  The reader is also left behind what was read. *)
  Definition ParseValue (text : list Z) : option (value * reader) := parseValue (newReader text).
  Definition ParseRow (text : list Z) : option (row * reader) := parseRow (newReader text).
  Definition ParseRows (text : list Z) : option (list row) := parseRows_ (newReader text).

  (** [MustParseRow], [MustParseRows], testutil/parse.go:259-273: [None] is a panic. *)
  Definition MustParseRow (text : list Z) : option row := option_map fst (ParseRow text).
  Definition MustParseRows (text : list Z) : option (list row) := ParseRows text.

  (** [identifierRune], testutil/parse.go:275-277. *)
  Definition identifierRune (r : Z) : bool := x_is_letter r || x_is_digit r || (r =? 95) || (r =? 36).

  (** [expectIdentifier], testutil/parse.go:279-286, with the table of
      identifiers.  What is registered before an error is not modelled. *)
  Definition expectIdent (t : idtable) (rs : reader) : option (Z * idtable * reader) :=
    match skipTo rs with
    | None => None
    | Some (r, rs) =>
        if negb (identifierRune r) then None
        else
          match readRunes rs r true identifierRune with
          | None => None
          | Some (s, rs) => let '(t, id) := ID t s false in Some (id, t, rs)
          end
    end.

  (** [optionalIdentifier], testutil/parse.go:288-298. *)
  Definition optionalIdent (t : idtable) (rs : reader) : option (option Z * idtable * reader) :=
    match skipWhitespace rs true with
    | None => None
    | Some (None, rs) => Some (None, t, rs)
    | Some (Some r, rs) =>
        if negb (identifierRune r) then Some (None, t, unreadRune_ rs)
        else
          match readRunes rs r true identifierRune with
          | None => None
          | Some (s, rs) => let '(t, id) := ID t s false in Some (Some id, t, rs)
          end
    end.

  (** [parseIdentifiers], testutil/parse.go:315-326. *)
  Fixpoint parseIdentsLoop (n : nat) (t : idtable) (rs : reader) : option (list Z * idtable) :=
    match n with
    | O => None
    | S n' =>
        match expectIdent t rs with
        | None => None
        | Some (id, t, rs) =>
            match expectRune rs 44 true with
            | None => None
            | Some (true, _) => Some ([id], t)
            | Some (false, rs) =>
                match parseIdentsLoop n' t rs with
                | None => None
                | Some (ids, t) => Some (id :: ids, t)
                end
            end
        end
    end.

  (** [parseOptionalSize], testutil/parse.go:343-364; the conversion to uint32
      truncates. *)
  Definition parseOptionalSize (rs : reader) : option (option Z * reader) :=
    match skipWhitespace rs true with
    | None => None
    | Some (None, rs) => Some (None, rs)
    | Some (Some r, rs) =>
        if negb (r =? 40) then Some (None, unreadRune_ rs)
        else
          match skipTo rs with
          | None => None
          | Some (r, rs) =>
              if negb (x_is_digit r) then None
              else
                match readRunes rs r true x_is_digit with
                | None => None
                | Some (s, rs) =>
                    match parse_int s with
                    | None => None
                    | Some i =>
                        match expectRune rs 41 false with
                        | None => None
                        | Some (_, rs) => Some (Some (u32 i), rs)
                        end
                    end
                end
          end
    end.

  (** The inner loop of [parseColumns], testutil/parse.go:388-407: the words
      behind a type.  [num] is the number of the column. *)
  Fixpoint columnWords (n : nat) (num : Z) (ct : coltype) (t : idtable) (rs : reader) : option (coltype * list Z * idtable * reader) :=
    match n with
    | O => None
    | S n' =>
        match optionalIdent t rs with
        | None => None
        | Some (None, t, rs) => Some (ct, [], t, rs)
        | Some (Some id, t, rs) =>
            if id =? kPRIMARY then
              match expectIdent t rs with
              | None => None
              | Some (id, t, rs) =>
                  if negb (id =? kKEY) then None
                  else
                    match columnWords n' num ct t rs with
                    | None => None
                    | Some (ct, key, t, rs) => Some (ct, MakeColumnKey num false :: key, t, rs)
                    end
              end
            else if id =? kNOT then
              match expectIdent t rs with
              | None => None
              | Some (id, t, rs) => if negb (id =? kNULL) then None else columnWords n' num (set_notnull ct) t rs
              end
            else None
        end
    end.

  (** The outer loop, testutil/parse.go:372-413. *)
  Fixpoint columnsLoop (n : nat) (num : Z) (t : idtable) (rs : reader) : option (list Z * list coltype * list Z * idtable) :=
    match n with
    | O => None
    | S n' =>
        match expectIdent t rs with
        | None => None
        | Some (col, t, rs) =>
            match expectIdent t rs with
            | None => None
            | Some (typ, t, rs) =>
                match findColumnType typ with
                | None => None
                | Some ct =>
                    match (match ct_type ct with StringType | BytesType => parseOptionalSize rs | _ => Some (None, rs) end) with
                    | None => None
                    | Some (sz, rs) =>
                        let ct := match sz with Some s => set_size ct s | None => ct end in
                        match columnWords (S (length (r_ahead rs))) num ct t rs with
                        | None => None
                        | Some (ct, key, t, rs) =>
                            match expectRune rs 44 true with
                            | None => None
                            | Some (true, _) => Some ([col], [ct], key, t)
                            | Some (false, rs) =>
                                match columnsLoop n' (num + 1) t rs with
                                | None => None
                                | Some (cols, cts, keys, t) => Some (col :: cols, ct :: cts, key ++ keys, t)
                                end
                            end
                        end
                    end
                end
            end
        end
    end.

  (** [ParseIdentifier], [ParseIdentifiers] and [ParseColumns], testutil/parse.go:300-313,
      328-341, 366-435. *)
  Definition ParseIdentifier (t : idtable) (text : list Z) : option (Z * idtable * reader) := expectIdent t (newReader text).
  Definition ParseIdentifiers (t : idtable) (text : list Z) : option (list Z * idtable) := parseIdentsLoop (S (length text)) t (newReader text).
  Definition ParseColumns (t : idtable) (text : list Z) : option (list Z * list coltype * list Z * idtable) :=
    columnsLoop (S (length text)) 0 t (newReader text).
End Testutil.

(** [Row.String], types/value.go:218-229. *)
Definition rowString {P : PrintLib} (r : row) : bytes :=
  str "(" ++ (match r with [] => [] | v :: r' => FormatValue v ++ flat_map (fun v => str ", " ++ FormatValue v) r' end) ++ str ")".

(** [FormatRows], testutil/rows.go:10-20. *)
Definition FormatRows {P : PrintLib} (rows : list row) (sep : bytes) : bytes :=
  match rows with [] => [] | r :: rows' => rowString r ++ flat_map (fun r => sep ++ rowString r) rows' end.

(** [CompareRows], testutil/rows.go:22-40; [None] is the panic of [Compare]. *)
Fixpoint CompareRows (r1 r2 : row) : option comparison :=
  match r1, r2 with
  | [], [] => Some Eq
  | _ :: _, [] => Some Gt
  | [], _ :: _ => Some Lt
  | v1 :: r1', v2 :: r2' =>
      match Compare v1 v2 with
      | Some Eq => CompareRows r1' r2'
      | c => c
      end
  end.

(** [sort.Slice] with the comparison of testutil/rows.go:48-55 is not modelled. *)
Class SortLib : Type := { x_sort : list row -> list row }.

(** The loop of [RowsEqual], testutil/rows.go:58-62. *)
Fixpoint rowsEqualLoop (rows1 rows2 : list row) : option bool :=
  match rows1, rows2 with
  | r1 :: rows1', r2 :: rows2' =>
      match CompareRows r1 r2 with
      | Some Eq => rowsEqualLoop rows1' rows2'
      | Some _ => Some false
      | None => None
      end
  | _, _ => Some true
  end.

(** [RowsEqual], testutil/rows.go:42-65. *)
Definition RowsEqual {S : SortLib} (rows1 rows2 : list row) (unordered : bool) : option bool :=
  if negb (zlen rows1 =? zlen rows2) then Some false
  else if unordered then rowsEqualLoop (x_sort rows1) (x_sort rows2)
  else rowsEqualLoop rows1 rows2.

(** The two slices of the caller after [RowsEqual], testutil/rows.go:43-56, which
    sorts them in place; they are taken to share no rows of their arrays. *)
Definition RowsEqualLeaves {S : SortLib} (rows1 rows2 : list row) (unordered : bool) : list row * list row :=
  if negb (zlen rows1 =? zlen rows2) then (rows1, rows2)
  else if unordered then (x_sort rows1, x_sort rows2)
  else (rows1, rows2).
