(** What the codings of encode/encode.go are supposed to mean. *)

From Verif Require Import ModelBase.

(** The number written by a string of base-128 digits, least significant
    first; the high bit of each byte is a continuation flag, not a digit. *)
Fixpoint le128 (l : bytes) : Z :=
  match l with
  | [] => 0
  | b :: r => bz b mod 128 + 128 * le128 r
  end.

(** A complete varint: every byte but the last has its high bit set. *)
Fixpoint is_varint (l : bytes) : Prop :=
  match l with
  | [] => False
  | [b] => bz b < 128
  | b :: r => 128 <= bz b /\ is_varint r
  end.

(** The number written by base-256 digits, most significant first. *)
Fixpoint be256 (l : bytes) : Z :=
  match l with
  | [] => 0
  | b :: r => bz b * 256 ^ zlen r + be256 r
  end.
