(** Specification for property C67: where an error is reported. *)

From Verif Require Import ModelParser SpecScanner SpecParser SpecPosition.
From Verif Require SpecCast.

Section Place.
  Context {X : FloatLib} {L : CaseLib} {U : RuneLib} {B : BufLib}.

  (** The states of a scanner of which a reader of runes was made while a rune
      was put back.  COPY does this when its line ends right behind a word: the
      newline is put back, and the line behind it is dropped. *)
  Inductive astray (input : list Z) : scanner -> Prop :=
  | as_reader s : tokenizing input s -> s_unread s = true -> astray input (RuneReader s)
  | as_data s : tokenizing input s -> s_unread s = true -> astray input (snd (runeReaderReadRune s))
  | as_scan s c s' c' : astray input s -> Scan s c = Some (s', c') -> astray input s'
  | as_ids s t : astray input s -> astray input (set_ids s t)
  | as_more s : astray input s -> astray input (RuneReader s)
  | as_more_data s : astray input s -> astray input (snd (runeReaderReadRune s)).

  (** The line and the column of [c], the token that [text] begins with, behind
      [before]: those of its first rune, or of the rune behind it when it is a
      minus or a slash.  The end of a statement and the end of the file have the
      line and the column of [older]. *)
  Inductive reported (before text : list Z) (c older : sctx) : Prop :=
  | rp_token g r w : text = g ++ r :: w -> gap g -> begins r w -> r <> 45 -> r <> 47 ->
      position (before ++ g ++ [r]) (c_line c) (c_column c) -> reported before text c older
  | rp_sign g r x w : text = g ++ r :: x :: w -> gap g -> begins r (x :: w) -> r = 45 \/ r = 47 ->
      position (before ++ g ++ [r; x]) (c_line c) (c_column c) -> reported before text c older
  | rp_end g w : text = g ++ 59 :: w -> gap g -> c_token c = -2 ->
      c_line c = c_line older -> c_column c = c_column older -> reported before text c older
  | rp_eof g e : text = g ++ e -> gap g -> no_token e -> c_token c = -1 ->
      c_line c = c_line older -> c_column c = c_column older -> reported before text c older.
End Place.

(** What the text of an error at a line and a column of a file begins with; the
    lines are counted from 1, and 0 is that of no token. *)
Inductive error_says (fn : bytes) (line column : Z) : bytes -> Prop :=
| es_place l c : 0 < line -> SpecCast.decimal line l -> SpecCast.decimal column c ->
    error_says fn line column (str "parser: " ++ fn ++ str ":" ++ l ++ str ":" ++ c ++ str ": ")
| es_unknown : line <= 0 -> error_says fn line column (str "parser: " ++ fn ++ str ": ").
