(** Go's float64 as used by types/value.go and encode/key.go.

    A float64 is represented by its 64-bit pattern ([math.Float64bits],
    encode/key.go:87), a number below 2^64. *)

From Verif Require Export ModelBase.

(** Sign bit and the 63 remaining bits of a pattern (encode/key.go:88
    [u&(1<<63) != 0]). *)
Definition f_sign (p : Z) : bool := 2 ^ 63 <=? p.
Definition f_mag (p : Z) : Z := p mod 2 ^ 63.

(** [math.IsNaN] (encode/key.go:78): exponent all ones, fraction not zero. *)
Definition f_isnan (p : Z) : bool := 2047 * 2 ^ 52 <? f_mag p.

(** The value of a pattern that is not a NaN, multiplied by 2^1074, which
    makes it an integer; the infinities get the value the formula gives for
    a biased exponent of 2047, which is larger than every finite value.
    This is what the comparisons of types/value.go:121-137 and the bits of
    encode/key.go:74-96 rest on. *)
Definition f_magval (m : Z) : Z :=
  let e := m / 2 ^ 52 in
  let f := m mod 2 ^ 52 in
  if e =? 0 then f else (2 ^ 52 + f) * 2 ^ (e - 1).
Definition f_val (p : Z) : Z := if f_sign p then - f_magval (f_mag p) else f_magval (f_mag p).

(** IEEE comparison; Go's [<], [>] and [==] on float64 are derived from it and
    are all false on [None] (types/value.go:101-103, 124-126, 131-133;
    encode/key.go:84). *)
Definition f_cmp (p q : Z) : option comparison :=
  if f_isnan p || f_isnan q then None else Some (f_val p ?= f_val q).

(** Unary minus flips the sign bit (encode/key.go:76). *)
Definition f_neg (p : Z) : Z := if f_sign p then p - 2 ^ 63 else p + 2 ^ 63.

(** [val == 0] (encode/key.go:84). *)
Definition f_iszero (p : Z) : bool :=
  match f_cmp p 0 with Some Eq => true | _ => false end.

(** The conversion [Float64Value(i)] of an int64: round to nearest, ties to
    even (types/value.go:101, 124, 275). *)
Definition f_of_int (z : Z) : Z :=
  if z =? 0 then 0 else
  let a := Z.abs z in
  let k := Z.log2 a in
  let q :=
    if k <=? 52 then a * 2 ^ (52 - k)
    else
      let s := k - 52 in
      let q := a / 2 ^ s in
      let r := a mod 2 ^ s in
      if (2 ^ (s - 1) <? r) || ((r =? 2 ^ (s - 1)) && Z.odd q) then q + 1 else q in
  let m := (k + 1023) * 2 ^ 52 + (q - 2 ^ 52) in
  if z <? 0 then m + 2 ^ 63 else m.

(** The value truncated toward zero, when the conversion [Int64Value(f)]
    (types/value.go:287) is defined by the Go language: not a NaN and in the
    range of int64. *)
Definition f_trunc (p : Z) : option Z :=
  if f_isnan p then None
  else
    let z := Z.quot (f_val p) (2 ^ 1074) in
    if (- 2 ^ 63 <=? z) && (z <? 2 ^ 63) then Some z else None.
