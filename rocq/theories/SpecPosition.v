(** Specification for property C54: lines and columns. *)

From Verif Require Import ModelScanner SpecScanner.

(** The line and the column of the last rune of a text, both counted from one;
    the column of a newline, which starts its line, is zero, and so is that of
    the text that is empty.  [b] is what follows the last newline. *)
Definition position (text : list Z) (line column : Z) : Prop :=
  exists a b, text = a ++ b /\ ~ In 10 b /\ (a = [] \/ exists a', a = a' ++ [10]) /\
    line = 1 + Z.of_nat (count_occ Z.eq_dec a 10) /\ column = Z.of_nat (length b).

(** The states of a scanner that reads [input] token by token, a reader of runes
    being used only when no rune is put back. *)
Inductive tokenizing {X : FloatLib} {L : CaseLib} {U : RuneLib} {B : BufLib} : list Z -> scanner -> Prop :=
| tz_start ids input : Forall (fun r => 0 <= r <= 1114111) input ->
    tokenizing input (scannerInit ids input)
| tz_scan input s c s' c' : tokenizing input s -> Scan s c = Some (s', c') -> tokenizing input s'
| tz_ids input s t : tokenizing input s -> tokenizing input (set_ids s t)
| tz_reader input s : tokenizing input s -> s_unread s = false -> tokenizing input (RuneReader s)
| tz_data input s : tokenizing input s -> s_unread s = false -> tokenizing input (snd (runeReaderReadRune s)).

(** The first rune of a token, or of what is not a token. *)
Definition begins {U : RuneLib} (r : Z) (w : list Z) : Prop :=
  x_is_space r = false /\ r <> 59 /\ (forall w', r = 45 -> w <> 45 :: w') /\ (forall w', r = 47 -> w <> 42 :: w').

(** That the tokens meeting [Q] have the position of their first rune. *)
Definition positions_right (Q : tokval -> Prop) : Prop :=
  forall (X : FloatLib) (L : CaseLib) (U : RuneLib) (B : BufLib), RuneLib_scan U -> forall input before s c g w v f l s' c',
    Q v -> tokenizing input s -> input = before ++ rest s -> rest s = g ++ w ++ f -> gap g -> lexeme w v f l -> Scan s c = Some (s', c') ->
    position (before ++ g ++ firstn 1 w) (c_line c') (c_column c').
