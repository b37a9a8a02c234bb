(** types/column.go: the text of a column type. *)

From Verif Require Export ModelColumn ModelPrint.

(** [ColumnType.String], types/column.go:34-81; [None] is a panic.  The default of
    the outer switch is for types that are no [ValueType]. *)
Definition columnTypeString (ct : coltype) : option bytes :=
  let sized (name : bytes) := Some (name ++ str "(" ++ format_int (ct_size ct) ++ str ")") in
  match ct_type ct with
  | UnknownType => Some (str "UNKNOWN")
  | BoolType => Some (str "BOOL")
  | StringType =>
      if ct_size ct =? 0 then None
      else if ct_fixed ct then sized (str "CHAR")
      else if ct_size ct =? ModelColumn.MaxColumnSize then Some (str "TEXT")
      else sized (str "VARCHAR")
  | BytesType =>
      if ct_size ct =? 0 then None
      else if ct_fixed ct then sized (str "BINARY")
      else if ct_size ct =? ModelColumn.MaxColumnSize then Some (str "BYTES")
      else sized (str "VARBINARY")
  | Float64Type => Some (str "DOUBLE")
  | Int64Type =>
      if ct_size ct =? 2 then Some (str "SMALLINT")
      else if ct_size ct =? 4 then Some (str "INT")
      else if ct_size ct =? 8 then Some (str "BIGINT")
      else None
  end.
