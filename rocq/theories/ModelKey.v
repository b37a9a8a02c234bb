(** encode/key.go: encoding of primary keys. *)

From Verif Require Export ModelEncode ModelColumn.

(** The tags, encode/key.go:13-24. *)
Definition NullKeyTag : byte := x80.               (* 128 *)
Definition BoolKeyTag : byte := x81.               (* 129 *)
Definition Int64NegKeyTag : byte := x82.           (* 130 *)
Definition Int64NotNegKeyTag : byte := x83.        (* 131 *)
Definition Float64NaNKeyTag : byte := x8c.         (* 140 *)
Definition Float64NegKeyTag : byte := x8d.         (* 141 *)
Definition Float64ZeroKeyTag : byte := x8e.        (* 142 *)
Definition Float64PosKeyTag : byte := x8f.         (* 143 *)
Definition Float64NaNReverseKeyTag : byte := x90.  (* 144 *)
Definition StringKeyTag : byte := x96.             (* 150 *)
Definition BytesKeyTag : byte := xa0.              (* 160 *)

(** [^b] on a byte, encode/key.go:43. *)
Definition byte_not (b : byte) : byte := zb (255 - bz b).

(** The first loop of [encodeKeyBytes], encode/key.go:33-39: escape 0 and 1
    with 1, terminate with 0. *)
Fixpoint escapeKeyBytes (s : bytes) : bytes :=
  match s with
  | [] => [x00]
  | b :: r =>
      if (bz b =? 0) || (bz b =? 1) then x01 :: b :: escapeKeyBytes r
      else b :: escapeKeyBytes r
  end.

(** [encodeKeyBytes], encode/key.go:31-48; the second loop, lines 41-46,
    complements the bytes that were appended. *)
Definition encodeKeyBytes (buf s : bytes) (reverse : bool) : bytes :=
  buf ++ (if reverse then map byte_not (escapeKeyBytes s) else escapeKeyBytes s).

(** The body of the loop of [MakeKey] for one value, encode/key.go:57-113. *)
Definition encodeKeyValue (buf : bytes) (v : value) (reverse : bool) : bytes :=
  match v with
  | VBool b =>
      let b' := if reverse then negb b else b in
      (buf ++ [BoolKeyTag]) ++ [if b' then x01 else x00]
  | VString s => encodeKeyBytes (buf ++ [StringKeyTag]) s reverse
  | VBytes s => encodeKeyBytes (buf ++ [BytesKeyTag]) s reverse
  | VFloat p =>
      let p' := if reverse then f_neg p else p in
      if f_isnan p' then
        buf ++ [if reverse then Float64NaNReverseKeyTag else Float64NaNKeyTag]
      else if f_iszero p' then buf ++ [Float64ZeroKeyTag]
      else if negb (Z.land p' (2 ^ 63) =? 0)
      then EncodeUint64 (buf ++ [Float64NegKeyTag]) (u64 (Z.lnot p'))
      else EncodeUint64 (buf ++ [Float64PosKeyTag]) p'
  | VInt i =>
      let i' := if reverse then Z.lnot i else i in
      if i' <? 0 then EncodeUint64 (buf ++ [Int64NegKeyTag]) (u64 i')
      else EncodeUint64 (buf ++ [Int64NotNegKeyTag]) (u64 i')
  | VNull => buf ++ [NullKeyTag]
  end.

(** The loop of [MakeKey], encode/key.go:53-114; [None] is the panic "index
    out of range" of [row[ck.Column()]]. *)
Fixpoint makeKeyLoop (buf : bytes) (key : list Z) (r : row) : option bytes :=
  match key with
  | [] => Some buf
  | ck :: key' =>
      match znth r (ckColumn ck) with
      | None => None
      | Some v => makeKeyLoop (encodeKeyValue buf v (ckReverse ck)) key' r
      end
  end.

(** [MakeKey], encode/key.go:50-115. *)
Definition MakeKey (key : list Z) (r : row) : option bytes := makeKeyLoop [] key r.
