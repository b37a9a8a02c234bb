(** Types of columns as text. *)

From Verif Require Export ModelColumnText SpecPrint.
From Verif Require SpecCast.

(** The types with a text of their own: sizes as tables have them, and not longer than
    can be written. *)
Definition readable_type (ct : coltype) : Prop :=
  match ct_type ct with
  | UnknownType => False
  | BoolType => ct_size ct = 1 /\ ct_fixed ct = false
  | StringType | BytesType => 0 < ct_size ct <= 4294967294
  | Float64Type => ct_size ct = 8 /\ ct_fixed ct = false
  | Int64Type => (ct_size ct = 2 \/ ct_size ct = 4 \/ ct_size ct = 8) /\ ct_fixed ct = false
  end.

(** The types that have no text. *)
Definition unprintable_type (ct : coltype) : Prop :=
  match ct_type ct with
  | StringType | BytesType => ct_size ct = 0
  | Int64Type => ct_size ct <> 2 /\ ct_size ct <> 4 /\ ct_size ct <> 8
  | _ => False
  end.

(** REAL, that is written as DOUBLE. *)
Definition real_type (ct : coltype) : Prop := ct_type ct = Float64Type /\ ct_size ct = 4 /\ ct_fixed ct = false.

(** The definition of a table, with the texts of the types. *)
Inductive column_definitions (T : idtable) : list (Z * coltype) -> bytes -> Prop :=
| cds_one c ct t : columnTypeString ct = Some t ->
    column_definitions T [(c, ct)] (idString T c ++ str " " ++ t ++ (if ct_notnull ct then str " NOT NULL" else []))
| cds_more c ct t l s : columnTypeString ct = Some t -> column_definitions T l s ->
    column_definitions T ((c, ct) :: l)
      (idString T c ++ str " " ++ t ++ (if ct_notnull ct then str " NOT NULL" else []) ++ str ", " ++ s).
Definition table_definition (T : idtable) (tn : tablename) (l : list (Z * coltype)) (s : bytes) : Prop :=
  exists d, column_definitions T l d /\ s = str "CREATE TABLE " ++ tableString T tn ++ str " (" ++ d ++ str ")".

(** The table that is defined. *)
Definition table_of_columns (tn : tablename) (l : list (Z * coltype)) : stmt :=
  SCreateTable tn (map fst l) (map snd l) (map (fun _ => None) l) false [] [].

(** All of this text is read as the statement. *)
Definition read_as {X : FloatLib} {L : CaseLib} {U : RuneLib} {B : BufLib} {P : PrintLib} (T : idtable) (text : list Z) (s : stmt) : Prop :=
  forall input p, parsing input p -> p_unscanned p = 0%nat -> p_failed p = false -> rest (p_scanner p) = text ->
    real (s_ids (p_scanner p)) -> later T (s_ids (p_scanner p)) ->
    exists p', Parse p = PStmt (Some s) p' /\ rest (p_scanner p') = [] /\ p_failed p' = false.

(** The text of a type: a word, or a word and the size in the usual numerals.  The
    size of 2^32 - 2 is that of a column without a limit. *)
Inductive type_text (ct : coltype) : bytes -> Prop :=
| tx_word s : In (ct_type ct, s) [(UnknownType, "UNKNOWN"%string); (BoolType, "BOOL"%string); (Float64Type, "DOUBLE"%string)] -> type_text ct (str s)
| tx_int s : ct_type ct = Int64Type -> In (ct_size ct, s) [(2, "SMALLINT"%string); (4, "INT"%string); (8, "BIGINT"%string)] -> type_text ct (str s)
| tx_unlimited s : In (ct_type ct, s) [(StringType, "TEXT"%string); (BytesType, "BYTES"%string)] ->
    ct_fixed ct = false -> ct_size ct = 4294967294 -> type_text ct (str s)
| tx_sized s n : In (ct_type ct, ct_fixed ct, s) [(StringType, true, "CHAR"%string); (StringType, false, "VARCHAR"%string); (BytesType, true, "BINARY"%string); (BytesType, false, "VARBINARY"%string)] ->
    ct_size ct <> 0 -> (ct_fixed ct = false -> ct_size ct <> 4294967294) -> SpecCast.decimal (ct_size ct) n ->
    type_text ct (str s ++ str "(" ++ n ++ str ")").
