(** Specification of identifiers: what a spelling means. *)

From Verif Require Export ModelIdent.

(** Reserved words: cannot be used as names unless quoted. *)
Definition reserved_words : list bytes := map str
  [
    "ACTION"; "ADD"; "ALL"; "ALTER"; "AND"; "ANY"; "AS"; "ASC"; "BEGIN"; "BY";
    "CASCADE"; "CHECK"; "COLUMN"; "COMMIT"; "CONSTRAINT"; "COPY"; "CREATE"; "CROSS";
    "DATABASE"; "DEFAULT"; "DELETE"; "DELIMITER"; "DESC"; "DETACH"; "DROP";
    "EXECUTE"; "EXISTS"; "EXPLAIN"; "FALSE"; "FOREIGN"; "FROM"; "FULL"; "GROUP";
    "HAVING"; "IF"; "IN"; "INDEX"; "INNER"; "INSERT"; "INTO"; "IS"; "JOIN"; "KEY";
    "LEFT"; "NO"; "NOT"; "NULL"; "ON"; "OR"; "ORDER"; "OUTER"; "PREPARE"; "PRIMARY";
    "RESTRICT"; "REFERENCES"; "RIGHT"; "ROLLBACK"; "SCHEMA"; "SELECT"; "SET"; "SHOW";
    "SOME"; "START"; "TABLE"; "TO"; "TRANSACTION"; "TRUE"; "UNIQUE"; "UPDATE"; "USE";
    "USING"; "VALUES"; "VERBOSE"; "WHERE"; "WITH"
  ]%string.

(** Keywords that can be used as names. *)
Definition nonreserved_words : list bytes := map str
  [
    "BIGINT"; "BINARY"; "BLOB"; "BOOL"; "BOOLEAN"; "BYTEA"; "BYTES"; "CHAR";
    "CHARACTER"; "DOUBLE"; "INT"; "INT2"; "INT4"; "INT8"; "INTEGER"; "PATH";
    "PRECISION"; "REAL"; "SMALLINT"; "STDIN"; "TEXT"; "VARBINARY"; "VARCHAR"
  ]%string.

(** ASCII letters. *)
Definition ascii_lower (b : byte) : byte :=
  if (65 <=? bz b) && (bz b <=? 90) then zb (bz b + 32) else b.
Definition ascii_upper (b : byte) : byte :=
  if (97 <=? bz b) && (bz b <=? 122) then zb (bz b - 32) else b.
Definition is_ascii (b : byte) : Prop := bz b < 128.

(** What is assumed of Go's [strings.ToUpper] and [strings.ToLower]: on ASCII
    text they change ASCII letters only, and the case of ASCII letters in the
    argument does not matter. *)
Definition CaseLib_ok (L : CaseLib) : Prop :=
  (forall s, Forall is_ascii s -> x_to_upper s = map ascii_upper s) /\
  (forall s, Forall is_ascii s -> x_to_lower s = map ascii_lower s) /\
  (forall s, x_to_upper (map ascii_lower s) = x_to_upper s) /\
  (forall s, x_to_lower (map ascii_lower s) = x_to_lower s).

(** Two spellings that differ at most in the case of ASCII letters. *)
Definition same_but_case (s t : bytes) : Prop := map ascii_lower s = map ascii_lower t.

(** What a spelling denotes: a keyword, or a name. *)
Inductive meaning : Set :=
  | Keyword (w : bytes)
  | Name (n : bytes).

(** Only the first 128 bytes count; an unquoted spelling that is a keyword when
    put in upper case denotes it; otherwise it denotes the name in lower case;
    a quoted spelling denotes the name as it is. *)
Inductive means {L : CaseLib} : bytes -> bool -> meaning -> Prop :=
  | means_quoted s : means s true (Name (firstn 128 s))
  | means_keyword s w :
      x_to_upper (firstn 128 s) = w -> In w (reserved_words ++ nonreserved_words) ->
      means s false (Keyword w)
  | means_name s :
      ~ In (x_to_upper (firstn 128 s)) (reserved_words ++ nonreserved_words) ->
      means s false (Name (x_to_lower (firstn 128 s))).

(** The text of what is denoted. *)
Definition meaning_text (m : meaning) : bytes :=
  match m with Keyword w => w | Name n => n end.

(** A call that has returned. *)
Definition returned (ths : list idthread) (s : bytes) (quoted : bool) (id : Z) : Prop :=
  In (TDone s quoted id) ths.
