(** Basic vocabulary of the model: Go integers, byte slices, outcomes.

    /repo is Go code; the definitions of this file model the parts of the Go
    language and of its standard library which the code of /repo is written
    in, so they cite the places of /repo where they are used. *)

From Coq Require Export String.
From Coq Require Export List ZArith Bool.
From Coq Require Export Strings.Byte.
Export ListNotations.
Open Scope Z_scope.

(** A Go [[]byte] or [string] as a value (used everywhere, e.g.
    encode/encode.go:3). *)
Definition bytes := list byte.

(** The number held by a Go [byte] (encode/encode.go:35 [uint64(buf[idx])]). *)
Definition bz (b : byte) : Z := Z.of_N (Byte.to_N b).

(** The Go conversion [byte(u)], which keeps the low eight bits
    (encode/encode.go:7-8). *)
Definition zb (u : Z) : byte :=
  match Byte.of_N (Z.to_N (u mod 256)) with
  | Some b => b
  | None => x00
  end.

(** A Coq string literal as bytes; used for Go string literals.  The
    literals are those of the strings in the code, e.g.
    parser/sql/datadef.go:57-91. *)
Definition str (s : string) : bytes := list_byte_of_string s.

(** The Go conversion to [uint64]: reduction modulo 2^64
    (encode/encode.go:49, encode/key.go:105). *)
Definition u64 (z : Z) : Z := z mod 2 ^ 64.

(** The Go conversion to [uint32] (types/value.go:328 [uint32(len(s))]). *)
Definition u32 (z : Z) : Z := z mod 2 ^ 32.

(** The Go conversion to [int64] (encode/encode.go:58). *)
Definition i64 (z : Z) : Z :=
  let m := z mod 2 ^ 64 in
  if m <? 2 ^ 63 then m else m - 2 ^ 64.

(** The Go conversion to [int32] (types/column.go:86 [ColumnKey(num)]). *)
Definition i32 (z : Z) : Z :=
  let m := z mod 2 ^ 32 in
  if m <? 2 ^ 31 then m else m - 2 ^ 32.

(** Range of [uint64] (encode/encode.go:3), [uint32] (types/column.go:8),
    [int64] (types/value.go:81) and [int32] (types/column.go:9). *)
Definition is_u64 (z : Z) : Prop := 0 <= z < 2 ^ 64.
Definition is_u32 (z : Z) : Prop := 0 <= z < 2 ^ 32.
Definition is_i64 (z : Z) : Prop := - 2 ^ 63 <= z < 2 ^ 63.
Definition is_i32 (z : Z) : Prop := - 2 ^ 31 <= z < 2 ^ 31.

(** Go's [bytes.Compare] and [strings.Compare]: lexicographic comparison
    (types/value.go:153, 183; storage/basic/btree.go:25). *)
Fixpoint bytes_compare (a b : bytes) : comparison :=
  match a, b with
  | [], [] => Eq
  | [], _ :: _ => Lt
  | _ :: _, [] => Gt
  | x :: a', y :: b' =>
      match bz x ?= bz y with
      | Eq => bytes_compare a' b'
      | c => c
      end
  end.

(** Equality of byte slices (Go [==] on strings, e.g. types/value.go:244). *)
Fixpoint bytes_eqb (a b : bytes) : bool :=
  match a, b with
  | [], [] => true
  | x :: a', y :: b' => Byte.eqb x y && bytes_eqb a' b'
  | _, _ => false
  end.

(** Length of a Go slice or string as an [int] ([len], types/value.go:328). *)
Definition zlen {A : Type} (l : list A) : Z := Z.of_nat (List.length l).

(** Indexing a Go slice with an [int] or [uint32] index; [None] is the
    run-time panic "index out of range" (encode/key.go:54 [row[ck.Column()]]). *)
Definition znth {A : Type} (l : list A) (i : Z) : option A :=
  if i <? 0 then None else nth_error l (Z.to_nat i).

(** The errors returned by the code.  The text of a message is not modelled;
    each place where the code creates an error has its own constructor as far
    as callers can tell them apart. *)
Inductive error : Set :=
  | EOF                      (* io.EOF *)
  | ErrNotNull               (* types/value.go:232 *)
  | ErrCast                  (* types/value.go:249-295 *)
  | ErrTooLong               (* types/value.go:329, 338 *)
  | ErrIntRange              (* types/value.go:351, 353 *)
  | ErrRowTooLong            (* types/value.go:364 *)
  | ErrDuplicateKey          (* storage/basic/basic.go:379 *)
  | ErrTxCompleted           (* storage/basic/basic.go:229, 243 *)
  | ErrRowIdColumn           (* storage/basic/basic.go:192 *)
  | ErrOption                (* engine/engine.go:146 *)
  | ErrNoDatabase            (* engine/engine.go:176, 238, 282 *)
  | ErrNoSchema              (* engine/engine.go:267, 385 *)
  | ErrNoTable               (* engine/engine.go:316 *)
  | ErrGob                   (* engine/engine.go:337, 347 *)
  | ErrTableExists           (* evaluate/evaluate.go:101 *)
  | ErrIndexExists           (* evaluate/evaluate.go:83 *)
  | ErrNoColumn              (* evaluate/evaluate.go:89, 110 *)
  | ErrInTx                  (* evaluate/session.go:57, 71, 78 *)
  | ErrNoTx                  (* evaluate/session.go:63, 85 *)
  | ErrNoVariable            (* evaluate/session.go:114 *)
  | ErrOther.                (* any other error *)

(** Result of a Go function returning [(A, error)]: a value, an error, or a
    panic that unwinds to the caller.  As in types/value.go:235-379 and
    engine/engine.go:144-440. *)
Inductive res (A : Type) : Type :=
  | Ok (a : A)
  | Err (e : error)
  | Panic.
Arguments Ok {A}. Arguments Err {A}. Arguments Panic {A}.

(** Sequencing with the usual [if err != nil { return err }].  As in
    types/value.go:362-379 and engine/engine.go:353-414. *)
Definition rbind {A B : Type} (r : res A) (f : A -> res B) : res B :=
  match r with
  | Ok a => f a
  | Err e => Err e
  | Panic => Panic
  end.
