(** Specification of reading a row into a struct. *)

From Verif Require Export ModelTyped SpecTyped.

(** The bits of an integer. *)
Definition kind_bits (k : kind) : Z :=
  match k with
  | KInt8 => 8
  | KInt16 => 16
  | KInt32 => 32
  | _ => 64
  end.

(** What a field of a type holds after a value was read into it: an integer is
    reduced to the bits of the field and a float to a float32; only the types of
    pointers listed can be read, other than NULL. *)
Definition into {F : Float32Lib} (ct : coltype) (ft : ftype) (v : value) (f : fval) : Prop :=
  match ft, v with
  | FTPtr k, VNull => f = FPtr k None
  | FTBase KBytes, VNull => ct_notnull ct = false /\ f = FBytes None
  | FTBase KBool, VBool b => f = FBool b
  | FTBase KString, VString s => f = FString s
  | FTBase KBytes, VBytes s => f = FBytes (Some s)
  | FTBase KFloat64, VFloat p => f = FFloat KFloat64 p
  | FTBase KFloat32, VFloat p => f = FFloat KFloat32 (x_round32 p)
  | FTBase k, VInt i => exists j, f = FInt k j /\ in_kind k j /\ (2 ^ kind_bits k | i - j)
  | FTPtr KBool, VBool b => f = FPtr KBool (Some (FBool b))
  | FTPtr KString, VString s => f = FPtr KString (Some (FString s))
  | FTPtr KFloat64, VFloat p => f = FPtr KFloat64 (Some (FFloat KFloat64 p))
  | FTPtr KInt64, VInt i => f = FPtr KInt64 (Some (FInt KInt64 i))
  | _, _ => False
  end.

(** All fields of the struct were read from the row. *)
Definition filled {F : Float32Lib} (ti : typedinfo) (st : stype) (r : row) (fs : list fval) : Prop :=
  length fs = length (st_fields st) /\
  forall i fd ct, nth_error (st_fields st) i = Some fd -> nth_error (ti_types ti) i = Some ct ->
    exists v f, nth_error r i = Some v /\ nth_error fs i = Some f /\ into ct (fd_type fd) v f.

(** A value of a column that a field can hold. *)
Definition holds {F : Float32Lib} (ft : ftype) (v : value) : Prop :=
  match ft, v with
  | _, VNull => True
  | FTBase KInt8, VInt i => - 128 <= i <= 127
  | FTBase KFloat32, VFloat p => x_round32 p = p
  | _, _ => readable ft
  end.

(** The names of the types of fields, in Go. *)
Definition kind_text (k : kind) : string :=
  match k with
  | KBool => "bool" | KInt => "int" | KInt8 => "int8" | KInt16 => "int16" | KInt32 => "int32" | KInt64 => "int64"
  | KFloat32 => "float32" | KFloat64 => "float64" | KString => "string" | KBytes => "[]uint8" | KOther => "?"
  end.
Fixpoint named_type (v : fval) : Prop :=
  match v with
  | FInt KOther _ | FFloat KOther _ | FPtr KOther _ | FOther => False
  | FPtr _ (Some u) => named_type u
  | _ => True
  end.
Definition type_text (v : fval) : bytes :=
  match v with
  | FBool _ => str (kind_text KBool)
  | FInt k _ => str (kind_text k)
  | FFloat k _ => str (kind_text k)
  | FString _ => str (kind_text KString)
  | FBytes _ => str (kind_text KBytes)
  | FPtr k _ => str "*" ++ str (kind_text k)
  | FOther => []
  end.

(** The value of a column that is stored for a field: nil is NULL where the column
    admits NULL, and there a pointer is followed, but for bytes; a text column takes
    every field, for which no text but the name of its type is stored. *)
Inductive stored_as (vt : valtype) (size : Z) : fval -> value -> Prop :=
| sa_bool b : vt = BoolType -> stored_as vt size (FBool b) (VBool b)
| sa_int k i : vt = Int64Type -> stored_as vt size (FInt k i) (VInt i)
| sa_float k p : vt = Float64Type -> stored_as vt size (FFloat k p) (VFloat p)
| sa_nil : vt = BytesType -> 0 <= size -> stored_as vt size (FBytes None) (VBytes [])
| sa_bytes b : vt = BytesType -> zlen b <= size -> stored_as vt size (FBytes (Some b)) (VBytes b)
| sa_text s : vt = StringType -> zlen s <= size -> stored_as vt size (FString s) (VString s)
| sa_other v s : vt = StringType -> (forall s, v <> FString s) -> s = str "<" ++ type_text v ++ str " Value>" -> zlen s <= size -> stored_as vt size v (VString s).
Inductive stored (ct : coltype) : fval -> value -> Prop :=
| st_notnull v w : ct_notnull ct = true -> stored_as (ct_type ct) (ct_size ct) v w -> stored ct v w
| st_nil k : ct_notnull ct = false -> stored ct (FPtr k None) VNull
| st_nil_bytes : ct_notnull ct = false -> stored ct (FBytes None) VNull
| st_bytes b w : ct_notnull ct = false -> ct_type ct = BytesType -> stored_as BytesType (ct_size ct) (FBytes (Some b)) w -> stored ct (FBytes (Some b)) w
| st_pointer k v w : ct_notnull ct = false -> ct_type ct <> BytesType -> stored_as (ct_type ct) (ct_size ct) v w -> stored ct (FPtr k (Some v)) w.
