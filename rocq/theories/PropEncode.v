(** Properties C01 - C04: encode/encode.go. *)

From Verif Require Import ModelEncode SpecEncode LemmasEncode.

(** C01.  Encoding appends [e]; [e] is a varint for [n], minimal, of one to ten
    bytes; decoding [e] followed by anything gives back [n] and the rest. *)
Theorem C01_varint_round_trip :
  forall buf n rest, is_u64 n ->
  exists e, EncodeVarint buf n = buf ++ e /\
    DecodeVarint (e ++ rest) = Some (rest, n) /\
    is_varint e /\ le128 e = n /\
    (1 <= length e <= 10)%nat /\
    (n < 128 -> length e = 1%nat) /\ (128 <= n -> last e x00 <> x00).
Proof. exact varint_round_trip_lemma. Qed.
Print Assumptions C01_varint_round_trip.

Example C01_case :
  is_u64 (2 ^ 64 - 1) /\ EncodeVarint [x07] 300 = [x07; xac; x02] /\
  length (EncodeVarint [] (2 ^ 64 - 1)) = 10%nat /\
  DecodeVarint [xac; x02; xff] = Some ([xff], 300).
Proof. unfold is_u64. repeat split; vm_compute; congruence. Qed.

(** C02.  Zigzag coding of every int64. *)
Theorem C02_zigzag_round_trip :
  forall buf n rest, is_i64 n ->
  exists e, EncodeZigzag64 buf n = buf ++ e /\
    DecodeZigzag64 (e ++ rest) = Some (rest, n) /\
    (1 <= length e <= 10)%nat /\
    le128 e = (if n <? 0 then - 2 * n - 1 else 2 * n) /\
    (- 64 <= n < 64 -> length e = 1%nat).
Proof. exact zigzag_round_trip_lemma. Qed.
Print Assumptions C02_zigzag_round_trip.

Example C02_case :
  is_i64 (- 2 ^ 63) /\
  DecodeZigzag64 (EncodeZigzag64 [] (- 2 ^ 63) ++ [x05]) = Some ([x05], - 2 ^ 63) /\
  EncodeZigzag64 [] (-64) = [x7f].
Proof. unfold is_i64. repeat split; vm_compute; congruence. Qed.

(** C03.  Decoding succeeds exactly on inputs starting with a complete varint
    of at most ten bytes, and returns the rest and the number modulo 2^64. *)
Theorem C03_decode_varint_exact :
  forall buf rest n,
  DecodeVarint buf = Some (rest, n) <->
  exists e, buf = e ++ rest /\ is_varint e /\ (length e <= 10)%nat /\ n = le128 e mod 2 ^ 64.
Proof. exact decode_varint_exact. Qed.
Print Assumptions C03_decode_varint_exact.

Example C03_case :
  is_varint [x81; x80; x00] /\ DecodeVarint [x81; x80; x00; x09] = Some ([x09], 1) /\
  DecodeVarint [x81; x80] = None.
Proof. repeat split; vm_compute; congruence. Qed.

(** C03, the false part: an encoding of a number above 2^64 is not rejected,
    it decodes to the same number as a shorter encoding. *)
Theorem C03_decode_varint_overflow_refuted :
  exists e1 e2 n, e1 <> e2 /\ is_varint e2 /\ 2 ^ 64 <= le128 e2 /\
    DecodeVarint e1 = Some ([], n) /\ DecodeVarint e2 = Some ([], n).
Proof. exact varint_overflow_witness. Qed.
Print Assumptions C03_decode_varint_overflow_refuted.

(** C04.  Fixed-width integers: 8 and 4 bytes, big-endian, order preserving. *)
Theorem C04_uint64_big_endian :
  forall buf u, is_u64 u ->
  exists e, EncodeUint64 buf u = buf ++ e /\ length e = 8%nat /\ be256 e = u.
Proof. exact EncodeUint64_spec. Qed.
Print Assumptions C04_uint64_big_endian.

Theorem C04_uint32_big_endian :
  forall buf u, is_u32 u ->
  exists e, EncodeUint32 buf u = buf ++ e /\ length e = 4%nat /\ be256 e = u.
Proof. exact EncodeUint32_spec. Qed.
Print Assumptions C04_uint32_big_endian.

Theorem C04_uint64_order :
  forall buf u v, is_u64 u -> is_u64 v ->
  bytes_compare (EncodeUint64 buf u) (EncodeUint64 buf v) = (u ?= v).
Proof. exact uint64_order_lemma. Qed.
Print Assumptions C04_uint64_order.

Theorem C04_uint32_order :
  forall buf u v, is_u32 u -> is_u32 v ->
  bytes_compare (EncodeUint32 buf u) (EncodeUint32 buf v) = (u ?= v).
Proof. exact uint32_order_lemma. Qed.
Print Assumptions C04_uint32_order.

Example C04_case :
  is_u64 (2 ^ 64 - 2) /\ is_u32 (2 ^ 32 - 1) /\
  EncodeUint64 [x01] 258 = [x01; x00; x00; x00; x00; x00; x00; x01; x02] /\
  bytes_compare (EncodeUint64 [] 255) (EncodeUint64 [] 256) = Lt.
Proof. unfold is_u64, is_u32. repeat split; vm_compute; congruence. Qed.
