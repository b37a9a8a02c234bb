(** Specification of the order on values: what a user expects an index on
    columns of these types to be sorted by. *)

From Coq Require Export Floats.SpecFloat.
From Verif Require Import ModelColumn.

(** The IEEE 754 meaning of a 64-bit pattern, in the standard library's
    formalisation of floating-point numbers. *)
Definition sf_of_bits (p : Z) : spec_float :=
  let s := 2 ^ 63 <=? p in
  let e := (p / 2 ^ 52) mod 2 ^ 11 in
  let m := p mod 2 ^ 52 in
  if e =? 2047 then (if m =? 0 then S754_infinity s else S754_nan)
  else if e =? 0 then
    match m with Zpos m' => S754_finite s m' (-1074) | _ => S754_zero s end
  else
    match m + 2 ^ 52 with Zpos m' => S754_finite s m' (e - 1075) | _ => S754_nan end.

(** Floats in numerical order, all NaNs equal and before all numbers, the two
    zeros equal. *)
Definition float_order (p q : Z) : comparison :=
  match sf_of_bits p, sf_of_bits q with
  | S754_nan, S754_nan => Eq
  | S754_nan, _ => Lt
  | _, S754_nan => Gt
  | a, b => match SFcompare a b with Some c => c | None => Eq end
  end.

(** Types in their order within an index. *)
Definition type_rank (v : value) : Z :=
  match v with
  | VNull => 0 | VBool _ => 1 | VInt _ => 2 | VFloat _ => 3 | VString _ => 4 | VBytes _ => 5
  end.

(** false before true. *)
Definition bool_order (a b : bool) : comparison :=
  match a, b with
  | false, true => Lt | true, false => Gt | _, _ => Eq
  end.

(** Order within an ascending column. *)
Definition value_order (v w : value) : comparison :=
  match v, w with
  | VBool a, VBool b => bool_order a b
  | VInt i, VInt j => Z.compare i j
  | VFloat p, VFloat q => float_order p q
  | VString s, VString t => bytes_compare s t
  | VBytes s, VBytes t => bytes_compare s t
  | _, _ => Z.compare (type_rank v) (type_rank w)
  end.

(** Order within a column: a descending column reverses values of one type;
    NULL stays first. *)
Definition column_order (descending : bool) (v w : value) : comparison :=
  if descending && (type_rank v =? type_rank w) then CompOpp (value_order v w)
  else value_order v w.

(** Lexicographic order of rows by a list of columns. *)
Fixpoint key_order (cols : list (nat * bool)) (r1 r2 : row) : comparison :=
  match cols with
  | [] => Eq
  | (c, d) :: cols' =>
      match column_order d (nth c r1 VNull) (nth c r2 VNull) with
      | Eq => key_order cols' r1 r2
      | x => x
      end
  end.

(** Values that a key cannot tell apart: the same value, two NaNs, or two
    zeros. *)
Definition same_key_value (v w : value) : Prop :=
  v = w \/
  exists p q, v = VFloat p /\ w = VFloat q /\
    ((sf_of_bits p = S754_nan /\ sf_of_bits q = S754_nan) \/
     (exists s t, sf_of_bits p = S754_zero s /\ sf_of_bits q = S754_zero t)).

(** The columns of a key exist in a row and are numbered below the limit of
    column keys. *)
Definition key_fits (cols : list (nat * bool)) (r : row) : Prop :=
  forall c d, In (c, d) cols -> (c < length r)%nat /\ Z.of_nat c < 2 ^ 31 - 1.

(** A value that a column of the given type admits. *)
Definition admits (ct : coltype) (v : value) : Prop :=
  match v with
  | VNull => ct_notnull ct = false
  | VBool _ => ct_type ct = BoolType
  | VString s => ct_type ct = StringType /\ zlen s <= ct_size ct
  | VBytes s => ct_type ct = BytesType /\ zlen s <= ct_size ct
  | VFloat _ => ct_type ct = Float64Type
  | VInt i =>
      ct_type ct = Int64Type /\
      (ct_size ct = 2 -> -32768 <= i <= 32767) /\
      (ct_size ct = 4 -> -2147483648 <= i <= 2147483647)
  end.

(** The column keys of a list of columns with directions, made with the API
    function for it. *)
Definition keys_of (cols : list (nat * bool)) : list Z :=
  map (fun cd => MakeColumnKey (Z.of_nat (fst cd)) (snd cd)) cols.

(** One is an integer and the other a float. *)
Definition mixed_numbers (v w : value) : Prop :=
  match v, w with
  | VInt _, VFloat _ | VFloat _, VInt _ => True
  | _, _ => False
  end.

(** A float NaN. *)
Definition is_nan (v : value) : Prop := exists p, v = VFloat p /\ sf_of_bits p = S754_nan.

(** Blanks around text that is converted: space, tab, newline. *)
Definition blank (b : byte) : Prop := b = x20 \/ b = x09 \/ b = x0a.
Definition blanks (s : bytes) : Prop := Forall blank s.

(** Decimal numerals. *)
Definition digit (b : byte) : Prop := 48 <= bz b <= 57.
Definition dec_value (ds : bytes) : Z := fold_left (fun a b => a * 10 + (bz b - 48)) ds 0.

(** Text that denotes an integer: digits with an optional sign. *)
Inductive int_text : bytes -> Z -> Prop :=
  | it_plain ds : ds <> [] -> Forall digit ds -> int_text ds (dec_value ds)
  | it_plus ds : ds <> [] -> Forall digit ds -> int_text (x2b :: ds) (dec_value ds)
  | it_minus ds : ds <> [] -> Forall digit ds -> int_text (x2d :: ds) (- dec_value ds).

(** The exact value of a finite float is the integer [z]. *)
Definition float_is_int (p z : Z) : Prop :=
  match sf_of_bits p with
  | S754_zero _ => z = 0
  | S754_finite s m e =>
      (if s then Z.neg m else Z.pos m) * 2 ^ (e + 1074) = z * 2 ^ 1074
  | _ => False
  end.

(** The words for the two truth values. *)
Definition bool_words (b : bool) : list bytes :=
  map str (if b then ["t"; "true"; "y"; "yes"; "on"; "1"]
           else ["f"; "false"; "n"; "no"; "off"; "0"])%string.
