(** types/value.go: values, comparison, casts and conversions. *)

From Verif Require Export ModelFloat.

(** [types.Value], types/value.go:13-17 and 51, 81, 111, 141, 158; [VNull] is
    the nil interface. *)
Inductive value : Set :=
  | VNull
  | VBool (b : bool)
  | VString (s : bytes)
  | VBytes (s : bytes)
  | VFloat (p : Z)          (* bit pattern, below 2^64 *)
  | VInt (i : Z).           (* in the range of int64 *)

(** [types.Row], types/value.go:19, when it is not nil. *)
Definition row := list value.

(** [ValueType], types/value.go:21-30.  Other integers, which the type would
    admit, do not occur. *)
Inductive valtype : Set :=
  | UnknownType | BoolType | StringType | BytesType | Float64Type | Int64Type.

(** [ColumnType], types/column.go:15-23. *)
Record coltype : Set := {
  ct_type : valtype;
  ct_size : Z;              (* uint32 *)
  ct_fixed : bool;
  ct_notnull : bool
}.

(** The parts of Go's library that are not modelled: [strconv.FormatFloat] and
    [strconv.ParseFloat] (types/value.go:258, 277), and what the conversion of
    an out-of-range float to int64 gives (types/value.go:287), which Go leaves
    to the implementation. *)
Class FloatLib : Type := {
  x_format_float : Z -> bytes;
  x_parse_float : bytes -> option Z;
  x_float_to_int : Z -> Z
}.

(** [ParseFloat] returns a float64, the conversion returns an int64.  Called
    in types/value.go:277, 287. *)
Definition FloatLib_ok (X : FloatLib) : Prop :=
  (forall s p, x_parse_float s = Some p -> is_u64 p) /\
  (forall p, is_i64 (x_float_to_int p)).

(** [order], types/value.go:60, 87, 117, 147, 177. *)
Definition order (v : value) : Z :=
  match v with
  | VNull => 0              (* not called on nil *)
  | VBool _ => 1
  | VInt _ => 2
  | VFloat _ => 2
  | VString _ => 3
  | VBytes _ => 4
  end.

(** The pattern [if a < b { return -1 } else if a > b { return 1 }; return 0]
    on floats, types/value.go:101-106 and 124-138; -1, 0, 1 are rendered as
    [Lt], [Eq], [Gt]. *)
Definition compare_floats (a b : Z) : comparison :=
  match f_cmp a b with Some c => c | None => Eq end.

(** The methods [compare], types/value.go:64-79, 91-109, 121-139, 151-156,
    181-186; [None] is the panic on an unexpected type. *)
Definition compare_method (v w : value) : option comparison :=
  match v, w with
  | VBool b, VBool b2 =>
      Some (if b then (if b2 then Eq else Gt) else (if b2 then Lt else Eq))
  | VInt i, VInt j => Some (if i <? j then Lt else if j <? i then Gt else Eq)
  | VInt i, VFloat q => Some (compare_floats (f_of_int i) q)
  | VFloat p, VInt j => Some (compare_floats p (f_of_int j))
  | VFloat p, VFloat q => Some (compare_floats p q)
  | VString s, VString t => Some (bytes_compare s t)
  | VBytes s, VBytes t => Some (bytes_compare s t)
  | _, _ => None
  end.

(** [Compare], types/value.go:188-208; [None] is a panic. *)
Definition Compare (v1 v2 : value) : option comparison :=
  match v1, v2 with
  | VNull, VNull => Some Eq
  | VNull, _ => Some Lt
  | _, VNull => Some Gt
  | _, _ =>
      if order v1 <? order v2 then Some Lt
      else if order v2 <? order v1 then Some Gt
      else compare_method v1 v2
  end.

(** The cut set [" \t\n"] of [strings.Trim], types/value.go:243. *)
Definition is_trim (b : byte) : bool :=
  Byte.eqb b x20 || Byte.eqb b x09 || Byte.eqb b x0a.

(** [strings.Trim(s, " \t\n")], types/value.go:243, 277, 289. *)
Fixpoint trim_left (s : bytes) : bytes :=
  match s with
  | b :: r => if is_trim b then trim_left r else s
  | [] => []
  end.
Definition trim (s : bytes) : bytes := rev (trim_left (rev (trim_left s))).

(** Decimal digits of a natural number, as [strconv.FormatInt] produces them
    (types/value.go:256); twenty digits are enough for 64 bits. *)
Fixpoint format_digits (fuel : nat) (n : Z) (acc : bytes) : bytes :=
  match fuel with
  | O => acc
  | S fuel' =>
      let acc' := zb (48 + n mod 10) :: acc in
      if n <? 10 then acc' else format_digits fuel' (n / 10) acc'
  end.

(** [strconv.FormatInt(i, 10)], types/value.go:256. *)
Definition format_int (i : Z) : bytes :=
  if i <? 0 then x2d :: format_digits 20 (- i) [] else format_digits 20 i [].

(** Value of a digit string; [None] if some byte is not a decimal digit.
    Part of [strconv.ParseInt], called in types/value.go:289. *)
Fixpoint parse_digits (acc : Z) (s : bytes) : option Z :=
  match s with
  | [] => Some acc
  | b :: r =>
      if (48 <=? bz b) && (bz b <=? 57) then parse_digits (acc * 10 + (bz b - 48)) r else None
  end.

(** [strconv.ParseInt(s, 10, 64)], types/value.go:289; [None] is an error
    (syntax or range). *)
Definition parse_int (s : bytes) : option Z :=
  let '(neg, s') :=
    match s with
    | x2b :: r => (false, r)
    | x2d :: r => (true, r)
    | _ => (false, s)
    end in
  match s' with
  | [] => None
  | _ =>
      match parse_digits 0 s' with
      | None => None
      | Some n =>
          if neg then (if n <=? 2 ^ 63 then Some (- n) else None)
          else (if n <? 2 ^ 63 then Some n else None)
      end
  end.

(** A continuation byte of UTF-8 in the given range.  Part of [utf8.Valid],
    types/value.go:260. *)
Definition in_range (lo hi : Z) (b : byte) : bool := (lo <=? bz b) && (bz b <=? hi).

(** [utf8.Valid], types/value.go:260. *)
Fixpoint utf8_valid (s : bytes) : bool :=
  match s with
  | [] => true
  | c0 :: r0 =>
      let x := bz c0 in
      if x <? 128 then utf8_valid r0
      else match r0 with
      | [] => false
      | c1 :: r1 =>
          if in_range 194 223 c0 then in_range 128 191 c1 && utf8_valid r1
          else match r1 with
          | [] => false
          | c2 :: r2 =>
              if in_range 224 239 c0 then
                in_range (if x =? 224 then 160 else 128) (if x =? 237 then 159 else 191) c1
                && in_range 128 191 c2 && utf8_valid r2
              else match r2 with
              | [] => false
              | c3 :: r3 =>
                  if in_range 240 244 c0 then
                    in_range (if x =? 240 then 144 else 128) (if x =? 244 then 143 else 191) c1
                    && in_range 128 191 c2 && in_range 128 191 c3 && utf8_valid r3
                  else false
              end
          end
      end
  end.

(** The words accepted as booleans, types/value.go:244 and 246. *)
Definition true_words : list bytes :=
  [str "t"; str "true"; str "y"; str "yes"; str "on"; str "1"].
Definition false_words : list bytes :=
  [str "f"; str "false"; str "n"; str "no"; str "off"; str "0"].

(** [s == w1 || s == w2 || ...], types/value.go:244. *)
Definition is_word (s : bytes) (ws : list bytes) : bool := existsb (bytes_eqb s) ws.

Section WithFloatLib.
  Context {X : FloatLib}.

  (** The conversion [Int64Value(f)], types/value.go:287. *)
  Definition float_to_int (p : Z) : Z :=
    match f_trunc p with
    | Some z => z
    | None => x_float_to_int p
    end.

  (** [CastValue], types/value.go:235-302. *)
  Definition CastValue (vt : valtype) (v : value) : res value :=
    match v with
    | VNull => Ok VNull
    | _ =>
        match vt with
        | BoolType =>
            match v with
            | VString sv =>
                let s := trim sv in
                if is_word s true_words then Ok (VBool true)
                else if is_word s false_words then Ok (VBool false)
                else Err ErrCast
            | VBool _ => Ok v
            | _ => Err ErrCast
            end
        | StringType =>
            match v with
            | VInt i => Ok (VString (format_int i))
            | VFloat f => Ok (VString (x_format_float f))
            | VBytes b => if utf8_valid b then Ok (VString b) else Err ErrCast
            | VString _ => Ok v
            | _ => Err ErrCast
            end
        | BytesType =>
            match v with
            | VString s => Ok (VBytes s)
            | VBytes _ => Ok v
            | _ => Err ErrCast
            end
        | Float64Type =>
            match v with
            | VInt i => Ok (VFloat (f_of_int i))
            | VString s =>
                match x_parse_float (trim s) with
                | Some d => Ok (VFloat d)
                | None => Err ErrCast
                end
            | VFloat _ => Ok v
            | _ => Err ErrCast
            end
        | Int64Type =>
            match v with
            | VFloat f => Ok (VInt (float_to_int f))
            | VString s =>
                match parse_int (trim s) with
                | Some i => Ok (VInt i)
                | None => Err ErrCast
                end
            | VInt _ => Ok v
            | _ => Err ErrCast
            end
        | UnknownType => Panic
        end
    end.

  (** [ConvertValue], types/value.go:304-360. *)
  Definition ConvertValue (ct : coltype) (v : value) : res value :=
    match v with
    | VNull => if ct_notnull ct then Err ErrNotNull else Ok VNull
    | _ =>
        rbind (CastValue (ct_type ct) v) (fun v =>
        match ct_type ct with
        | BoolType => match v with VBool _ => Ok v | _ => Err ErrCast end
        | StringType =>
            match v with
            | VString s => if ct_size ct <? u32 (zlen s) then Err ErrTooLong else Ok v
            | _ => Err ErrCast
            end
        | BytesType =>
            match v with
            | VBytes b => if ct_size ct <? u32 (zlen b) then Err ErrTooLong else Ok v
            | _ => Err ErrCast
            end
        | Float64Type => match v with VFloat _ => Ok v | _ => Err ErrCast end
        | Int64Type =>
            match v with
            | VInt i =>
                if (ct_size ct =? 2) && ((32767 <? i) || (i <? -32768)) then Err ErrIntRange
                else if (ct_size ct =? 4) && ((2147483647 <? i) || (i <? -2147483648))
                then Err ErrIntRange
                else Ok v
            | _ => Err ErrCast
            end
        | UnknownType => Panic
        end)
    end.

  (** The loop of [ConvertRow], types/value.go:367-378: [nrow] is made with one
      nil per column and the supplied values are converted one after the
      other. *)
  Fixpoint convertRowLoop (cts : list coltype) (r : row) : res row :=
    match cts, r with
    | [], _ => Ok []
    | _ :: _, [] => Ok (map (fun _ => VNull) cts)
    | ct :: cts', v :: r' =>
        rbind (ConvertValue ct v) (fun v' =>
        rbind (convertRowLoop cts' r') (fun nrow => Ok (v' :: nrow)))
    end.

  (** [ConvertRow], types/value.go:362-379. *)
  Definition ConvertRow (cts : list coltype) (r : row) : res row :=
    if zlen cts <? zlen r then Err ErrRowTooLong else convertRowLoop cts r.
End WithFloatLib.

(** A value of Go's types: floats are 64-bit patterns, integers are int64.
    types/value.go:51-165. *)
Definition wf_value (v : value) : Prop :=
  match v with
  | VFloat p => is_u64 p
  | VInt i => is_i64 i
  | _ => True
  end.
