(** What it means to cast a value to a type: which results there are, stated
    without the code.  Texts of floats are those of the library. *)

From Verif Require Export ModelColumn SpecValue.

(** The value of a finite float, multiplied by 2^1074 (every finite float is a
    multiple of 2^-1074). *)
Definition scaled (p : Z) : option Z :=
  match sf_of_bits p with
  | S754_zero _ => Some 0
  | S754_finite s m e => Some ((if s then Z.neg m else Z.pos m) * 2 ^ (e + 1074))
  | _ => None
  end.

(** How far the value [a / 2^1074] is from the integer [i]. *)
Definition off (i a : Z) : Z := Z.abs (a - i * 2 ^ 1074).

(** [p] is the float for the integer [i]: no finite float is nearer, and if
    another one is as near, [p] is the one with the even fraction; zero is the
    zero without a sign. *)
Definition nearest (i p : Z) : Prop :=
  is_u64 p /\ (i = 0 -> p = 0) /\
  exists a, scaled p = Some a /\
    forall q b, is_u64 q -> scaled q = Some b ->
      off i a < off i b \/ off i a = off i b /\ (b = a \/ Z.even p = true).

(** [z] is what is left of the value of [p] without its fraction. *)
Definition truncated (p z : Z) : Prop :=
  exists a, scaled p = Some a /\
    (0 <= a /\ z * 2 ^ 1074 <= a < (z + 1) * 2 ^ 1074 \/
     a <= 0 /\ (z - 1) * 2 ^ 1074 < a <= z * 2 ^ 1074).

(** The usual numeral of an integer: no plus sign, no leading zeros, no minus
    zero. *)
Inductive decimal : Z -> bytes -> Prop :=
  | dec_zero : decimal 0 [x30]
  | dec_pos d r : digit d -> d <> x30 -> Forall digit r -> decimal (dec_value (d :: r)) (d :: r)
  | dec_neg d r : digit d -> d <> x30 -> Forall digit r ->
      decimal (- dec_value (d :: r)) (x2d :: d :: r).

(** UTF-8 (RFC 3629): the bytes of a code point, and texts. *)
Inductive utf8_char : Z -> bytes -> Prop :=
  | u8_1 c : 0 <= c < 128 -> utf8_char c [zb c]
  | u8_2 c : 128 <= c < 2048 -> utf8_char c [zb (192 + c / 64); zb (128 + c mod 64)]
  | u8_3 c : 2048 <= c < 65536 -> ~ 55296 <= c <= 57343 ->
      utf8_char c [zb (224 + c / 4096); zb (128 + c / 64 mod 64); zb (128 + c mod 64)]
  | u8_4 c : 65536 <= c < 1114112 ->
      utf8_char c [zb (240 + c / 262144); zb (128 + c / 4096 mod 64);
                   zb (128 + c / 64 mod 64); zb (128 + c mod 64)].
Inductive utf8_text : bytes -> Prop :=
  | u8_nil : utf8_text []
  | u8_cons c w s : utf8_char c w -> utf8_text s -> utf8_text (w ++ s).

(** No blank at either end. *)
Definition unpadded (t : bytes) : Prop :=
  (forall x r, t = x :: r -> ~ blank x) /\ (forall x r, t = r ++ [x] -> ~ blank x).

Section Casts.
  Context {X : FloatLib}.

  (** [casts vt v w]: the value [v] as one of type [vt] is [w]. *)
  Inductive casts : valtype -> value -> value -> Prop :=
  | c_null vt : casts vt VNull VNull
  (* to truth values *)
  | c_bool b : casts BoolType (VBool b) (VBool b)
  | c_text_bool l t r b : blanks l -> blanks r -> In t (bool_words b) ->
      casts BoolType (VString (l ++ t ++ r)) (VBool b)
  (* to text *)
  | c_text s : casts StringType (VString s) (VString s)
  | c_int_text i t : decimal i t -> casts StringType (VInt i) (VString t)
  | c_float_text p : casts StringType (VFloat p) (VString (x_format_float p))
  | c_bytes_text s : utf8_text s -> casts StringType (VBytes s) (VString s)
  (* to bytes *)
  | c_bytes s : casts BytesType (VBytes s) (VBytes s)
  | c_text_bytes s : casts BytesType (VString s) (VBytes s)
  (* to floats *)
  | c_float p : casts Float64Type (VFloat p) (VFloat p)
  | c_int_float i p : nearest i p -> casts Float64Type (VInt i) (VFloat p)
  | c_text_float l t r p : blanks l -> blanks r -> unpadded t -> x_parse_float t = Some p ->
      casts Float64Type (VString (l ++ t ++ r)) (VFloat p)
  (* to integers *)
  | c_int i : casts Int64Type (VInt i) (VInt i)
  | c_float_int p z : truncated p z -> is_i64 z -> casts Int64Type (VFloat p) (VInt z)
  | c_float_far p : (forall z, truncated p z -> ~ is_i64 z) ->
      casts Int64Type (VFloat p) (VInt (x_float_to_int p))
  | c_text_int l t r i : blanks l -> blanks r -> int_text t i -> is_i64 i ->
      casts Int64Type (VString (l ++ t ++ r)) (VInt i).

  (** No text or bytes that the value is cast to have 2^32 bytes or more. *)
  Definition short_texts (vt : valtype) (v : value) : Prop :=
    forall s, casts vt v (VString s) \/ casts vt v (VBytes s) -> zlen s < 2 ^ 32.

  (** Why a value is refused for a column. *)
  Definition refused (ct : coltype) (v : value) (e : error) : Prop :=
    match e with
    | ErrNotNull => v = VNull /\ ct_notnull ct = true
    | ErrCast => forall w, ~ casts (ct_type ct) v w
    | ErrTooLong => exists s, ct_size ct < zlen s /\
        (casts (ct_type ct) v (VString s) \/ casts (ct_type ct) v (VBytes s))
    | ErrIntRange => exists i, casts (ct_type ct) v (VInt i) /\ ~ admits ct (VInt i)
    | _ => False
    end.
End Casts.

(** How values compare: NULL first, then truth values, numbers, texts and bytes;
    an integer is compared with a float as the float nearest to it; numbers that
    IEEE 754 cannot order are equal. *)
Definition kind_rank (v : value) : Z :=
  match v with
  | VNull => 0 | VBool _ => 1 | VInt _ => 2 | VFloat _ => 2 | VString _ => 3 | VBytes _ => 4
  end.
Definition ieee (p q : Z) : comparison :=
  match SFcompare (sf_of_bits p) (sf_of_bits q) with Some c => c | None => Eq end.
(** One text is the beginning of the other, or the first different bytes decide. *)
Definition before (s t : bytes) : Prop :=
  (exists x r, t = s ++ x :: r) \/
  (exists p x y r r', s = p ++ x :: r /\ t = p ++ y :: r' /\ bz x < bz y).
Inductive text_order : bytes -> bytes -> comparison -> Prop :=
  | to_same s : text_order s s Eq
  | to_before s t : before s t -> text_order s t Lt
  | to_behind s t : before t s -> text_order s t Gt.
Inductive compares : value -> value -> comparison -> Prop :=
  | cmp_kind v w : kind_rank v <> kind_rank w -> compares v w (kind_rank v ?= kind_rank w)
  | cmp_null : compares VNull VNull Eq
  | cmp_bool a b : compares (VBool a) (VBool b) (bool_order a b)
  | cmp_int i j : compares (VInt i) (VInt j) (i ?= j)
  | cmp_float p q : compares (VFloat p) (VFloat q) (ieee p q)
  | cmp_int_float i p q : nearest i p -> compares (VInt i) (VFloat q) (ieee p q)
  | cmp_float_int p i q : nearest i q -> compares (VFloat p) (VInt i) (ieee p q)
  | cmp_text s t c : text_order s t c -> compares (VString s) (VString t) c
  | cmp_bytes s t c : text_order s t c -> compares (VBytes s) (VBytes t) c.
