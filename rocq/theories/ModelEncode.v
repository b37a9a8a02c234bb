(** encode/encode.go: fixed-width, varint and zigzag codings. *)

From Verif Require Export ModelBase.

(** [EncodeUint64], encode/encode.go:3-9. *)
Definition EncodeUint64 (buf : bytes) (u : Z) : bytes :=
  buf ++ [zb (Z.shiftr u 56); zb (Z.shiftr u 48); zb (Z.shiftr u 40); zb (Z.shiftr u 32);
          zb (Z.shiftr u 24); zb (Z.shiftr u 16); zb (Z.shiftr u 8); zb u].

(** [EncodeUint32], encode/encode.go:11-16. *)
Definition EncodeUint32 (buf : bytes) (u : Z) : bytes :=
  buf ++ [zb (Z.shiftr u 24); zb (Z.shiftr u 16); zb (Z.shiftr u 8); zb u].

(** The loop of [EncodeVarint], encode/encode.go:20-24.  Every iteration but
    the last shifts a [uint64] right by seven bits, so ten iterations are
    enough; running out of fuel cannot happen for a [uint64]. *)
Fixpoint encodeVarintLoop (fuel : nat) (buf : bytes) (n : Z) : bytes :=
  match fuel with
  | O => buf
  | S fuel' =>
      if 128 <=? n
      then encodeVarintLoop fuel' (buf ++ [zb (Z.lor (Z.land n 127) 128)]) (Z.shiftr n 7)
      else buf ++ [zb n]
  end.

(** [EncodeVarint], encode/encode.go:18-25. *)
Definition EncodeVarint (buf : bytes) (n : Z) : bytes := encodeVarintLoop 10 buf n.

(** The loop of [DecodeVarint], encode/encode.go:31-41; [buf] is what the Go
    code calls [buf[idx:]].  The loop variable [shift] takes the ten values
    0, 7, ..., 63, so ten units of fuel are enough. *)
Fixpoint decodeVarintLoop (fuel : nat) (shift n : Z) (buf : bytes)
  : option (bytes * Z) :=
  match fuel with
  | O => None
  | S fuel' =>
      if shift <? 64 then
        match buf with
        | [] => None
        | c :: rest =>
            let b := bz c in
            let n' := Z.lor n (u64 (Z.shiftl (Z.land b 127) shift)) in
            if Z.land b 128 =? 0 then Some (rest, n')
            else decodeVarintLoop fuel' (shift + 7) n' rest
        end
      else None
  end.

(** [DecodeVarint], encode/encode.go:27-45; [None] is the result
    [nil, 0, false]. *)
Definition DecodeVarint (buf : bytes) : option (bytes * Z) :=
  decodeVarintLoop 11 0 0 buf.

(** [EncodeZigzag64], encode/encode.go:47-50. *)
Definition EncodeZigzag64 (buf : bytes) (n : Z) : bytes :=
  EncodeVarint buf (Z.lxor (u64 (Z.shiftl (u64 n) 1)) (u64 (Z.shiftr n 63))).

(** [DecodeZigzag64], encode/encode.go:52-59.  [(int64(n&1)<<63)>>63] is an
    arithmetic shift of a wrapped [int64]. *)
Definition DecodeZigzag64 (buf : bytes) : option (bytes * Z) :=
  match DecodeVarint buf with
  | None => None
  | Some (rest, n) =>
      Some (rest, i64 (Z.lxor (Z.shiftr n 1)
                              (u64 (Z.shiftr (i64 (Z.shiftl (Z.land n 1) 63)) 63))))
  end.
