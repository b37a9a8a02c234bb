(** What the helpers for tests are to do. *)

From Coq Require Export Permutation Sorted.
From Verif Require Export ModelTestutil SpecValue SpecScanner SpecPrint.

(** ** Rows *)

(** Rows that can be compared: values of Go, no NaN, and no integer where another
    row has a float. *)
Definition proper_row (r : row) : Prop := Forall (fun v => wf_value v /\ ~ is_nan v) r.
Definition unmixed (r1 r2 : row) : Prop := forall i, ~ mixed_numbers (nth i r1 VNull) (nth i r2 VNull).
Definition comparable (rows : list row) : Prop :=
  Forall proper_row rows /\ forall r1 r2, In r1 rows -> In r2 rows -> unmixed r1 r2.

(** The same rows but for the sign of zero. *)
Definition same_row (r1 r2 : row) : Prop := Forall2 same_key_value r1 r2.

(** What is assumed of [sort.Slice]: it permutes the rows; and if the comparison
    is an order (a strict weak one) on them then no row is less than one before
    it. *)
Definition an_order (rows : list row) : Prop :=
  forall r1 r2 r3, In r1 rows -> In r2 rows -> In r3 rows ->
    CompareRows r1 r1 <> Some Lt /\
    (CompareRows r1 r2 = Some Lt -> CompareRows r2 r3 = Some Lt -> CompareRows r1 r3 = Some Lt) /\
    (CompareRows r1 r2 <> Some Lt -> CompareRows r2 r1 <> Some Lt -> CompareRows r2 r3 <> Some Lt -> CompareRows r3 r2 <> Some Lt ->
     CompareRows r1 r3 <> Some Lt /\ CompareRows r3 r1 <> Some Lt).
Definition SortLib_ok (S : SortLib) : Prop :=
  forall rows, Permutation rows (x_sort rows) /\
    (an_order rows -> StronglySorted (fun r1 r2 => CompareRows r2 r1 <> Some Lt) (x_sort rows)).

(** ** Rows as text *)

Section Text.
  Context {X : FloatLib} {L : CaseLib} {U : RuneLib}.

  Definition spaces (w : list Z) : Prop := Forall (fun r => x_is_space r = true) w.
  Definition number_rune (r : Z) : Prop := x_is_digit r = true \/ r = 46.
  Definition letter_rune (r : Z) : Prop := x_is_letter r = true.
  Definition no_quote (w : list Z) : Prop := Forall (fun r => r <> 39) w.

  (** What a byte stands for as a digit; any byte is one. *)
  Inductive nibble : byte -> Z -> Prop :=
  | nb_digit c : 48 <= bz c <= 57 -> nibble c (bz c - 48)
  | nb_lower c : 97 <= bz c <= 102 -> nibble c (bz c - 97 + 10)
  | nb_other c : ~ 48 <= bz c <= 57 -> ~ 97 <= bz c <= 102 -> nibble c ((bz c - 65 + 10) mod 256).
  Inductive pairs : bytes -> bytes -> Prop :=
  | pr_nil : pairs [] []
  | pr_cons a b h l s c v : nibble a h -> nibble b l -> bz v = Z.lor ((16 * h) mod 256) l -> pairs s c -> pairs (a :: b :: s) (v :: c).

  (** A value: digits and dots, a word, or a text in quotes; [\x] marks bytes. *)
  Inductive value_text : list Z -> value -> Prop :=
  | vt_int w i : w <> [] -> Forall number_rune w -> int_text (encode w) i -> is_i64 i -> value_text w (VInt i)
  | vt_float w p : w <> [] -> Forall number_rune w -> (forall i, int_text (encode w) i -> ~ is_i64 i) ->
      x_parse_float (encode w) = Some p -> value_text w (VFloat p)
  | vt_bool w (b : bool) : w <> [] -> Forall letter_rune w -> x_to_lower (encode w) = (if b then str "true" else str "false") ->
      value_text w (VBool b)
  | vt_null w : w <> [] -> Forall letter_rune w -> x_to_lower (encode w) = str "null" -> value_text w VNull
  | vt_empty : value_text [39; 39] (VString [])
  | vt_string r w : r <> 39 -> r <> 92 -> r <> 0 -> no_quote w -> value_text (39 :: r :: w ++ [39]) (VString (encode (r :: w)))
  | vt_nul w : no_quote w -> value_text (39 :: 0 :: w ++ [39]) (VString (encode w))
  | vt_bytes x w b : In x [120; 88] -> no_quote w -> pairs (encode w) b -> value_text (39 :: 92 :: x :: w ++ [39]) (VBytes b).

  (** What may follow a value. *)
  Definition ends_value (v : value) (f : list Z) : Prop :=
    match v, f with
    | (VInt _ | VFloat _), r :: _ => ~ number_rune r
    | (VBool _ | VNull), r :: _ => ~ letter_rune r
    | _, _ => True
    end.

  Inductive items_text : list Z -> row -> Prop :=
  | it_last sp1 w sp2 v : spaces sp1 -> value_text w v -> spaces sp2 -> items_text (sp1 ++ w ++ sp2 ++ [41]) [v]
  | it_more sp1 w sp2 v w' r : spaces sp1 -> value_text w v -> spaces sp2 -> items_text w' r -> items_text (sp1 ++ w ++ sp2 ++ 44 :: w') (v :: r).
  Definition row_text (w : list Z) (r : row) : Prop := exists sp w', w = sp ++ 40 :: w' /\ spaces sp /\ items_text w' r.
  Inductive rows_text : list Z -> list row -> Prop :=
  | rt_last w r sp : row_text w r -> spaces sp -> rows_text (w ++ sp) [r]
  | rt_more w r sp w' l : row_text w r -> spaces sp -> rows_text w' l -> rows_text (w ++ sp ++ 44 :: w') (r :: l).

  (** Values that are read from what is printed for them. *)
  Context {P : PrintLib}.
  Definition writable (v : value) : Prop :=
    match v with
    | VNull | VBool _ | VBytes _ => True
    | VInt i => is_i64 i /\ 0 <= i
    | VFloat p => x_print_float p <> [] /\ Forall (fun b => digit b \/ bz b = 46) (x_print_float p) /\
        (forall i, int_text (x_print_float p) i -> ~ is_i64 i) /\ x_parse_float (x_print_float p) = Some p
    | VString s => exists w, s = encode w /\ Forall scalar w /\ no_quote w /\ match w with r :: _ => r <> 92 /\ r <> 0 | [] => True end
    end.
  Definition separator (sep : bytes) : Prop :=
    exists sp1 sp2, sep = encode (sp1 ++ 44 :: sp2) /\ Forall scalar (sp1 ++ sp2) /\ spaces sp1 /\ spaces sp2.
End Text.
