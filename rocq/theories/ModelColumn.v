(** types/column.go: column keys. *)

From Verif Require Export ModelValue.

(** [MaxColumnSize], types/column.go:12. *)
Definition MaxColumnSize : Z := 2 ^ 32 - 2.

(** [IdColType] ... [NullStringColType], types/column.go:26-32. *)
Definition IdColType := {| ct_type := StringType; ct_size := 128; ct_fixed := false; ct_notnull := true |}.
Definition Int32ColType := {| ct_type := Int64Type; ct_size := 4; ct_fixed := false; ct_notnull := true |}.
Definition Int64ColType := {| ct_type := Int64Type; ct_size := 8; ct_fixed := false; ct_notnull := true |}.
Definition NullInt64ColType := {| ct_type := Int64Type; ct_size := 8; ct_fixed := false; ct_notnull := false |}.
Definition BoolColType := {| ct_type := BoolType; ct_size := 0; ct_fixed := false; ct_notnull := true |}.
Definition StringColType := {| ct_type := StringType; ct_size := 4096; ct_fixed := false; ct_notnull := true |}.
Definition NullStringColType := {| ct_type := StringType; ct_size := 4096; ct_fixed := false; ct_notnull := false |}.

(** [MakeColumnKey], types/column.go:83-89: [num += 1] wraps in uint32, the
    conversion to and the negation in int32 wrap. *)
Definition MakeColumnKey (num : Z) (reverse : bool) : Z :=
  let num' := u32 (num + 1) in
  if reverse then i32 (- i32 num') else i32 num'.

(** [ColumnKey.Reverse], types/column.go:91-93. *)
Definition ckReverse (ck : Z) : bool := ck <? 0.

(** [ColumnKey.Column], types/column.go:95-100. *)
Definition ckColumn (ck : Z) : Z :=
  let ck' := if ck <? 0 then i32 (- ck) else ck in
  u32 (i32 (ck' - 1)).

(** [ColumnKeyUpdated], types/column.go:102-112. *)
Definition ColumnKeyUpdated (colKey : list Z) (cols : list Z) : bool :=
  existsb (fun ck => existsb (fun col => col =? ckColumn ck) cols) colKey.
