(** Specification for property C62: COPY and the lines of data behind it. *)

From Verif Require Export SpecTokens SpecAccepts.

Local Notation R := KReserved.
Local Notation I := KIdent.

(** COPY, as tokens: the table, perhaps columns, and perhaps what is between the
    values of a line. *)
Inductive copy_tokens : tablename -> list Z -> option byte -> list tok -> Prop :=
| cy_plain tn cols ts tc : table_name tn ts -> opt_names cols tc -> NoDup cols ->
    copy_tokens tn cols None (R kCOPY :: ts ++ tc ++ [R kFROM; I iSTDIN])
| cy_delimiter tn cols c ts tc : table_name tn ts -> opt_names cols tc -> NoDup cols ->
    copy_tokens tn cols (Some c) (R kCOPY :: ts ++ tc ++ [R kFROM; I iSTDIN; R kDELIMITER; KString [c]]).

Definition delimiter (d : option byte) : Z := match d with Some c => bz c | None => 9 end.

(** What is behind the first newline; nothing, if there is none. *)
Definition behind_line (l data : list Z) : Prop :=
  (exists u, l = u ++ 10 :: data /\ ~ In 10 u) \/ (~ In 10 l /\ data = []).

Section Copy.
  Context {X : FloatLib} {L : CaseLib} {U : RuneLib}.

  (** The text is these tokens and what ends a statement; then comes a line that is
      dropped, then the data.  Behind a DELIMITER that ends with its string, the
      line is dropped from the second rune on, and what ends the statement is
      looked for in the first rune and the data; what is left behind it. *)
  Inductive copy_text : list Z -> list tokval -> bool -> list Z -> list Z -> Prop :=
  | cx_plain text vs l data : statement_text text vs l -> behind_line l data -> copy_text text vs false data data
  | cx_delimiter text vs l data left : tokens text vs l -> behind_line (tl l) data ->
      statement_text (firstn 1 l ++ data) [] left -> copy_text text vs true data left.

  (** The tokens are those of a COPY, given the numbers of the names. *)
  Definition text_copies (T : idtable) (vs : list tokval) (tn : tablename) (cols : list Z) (d : option byte) : Prop :=
    exists ts, Forall2 (token_in T) vs ts /\ copy_tokens tn cols d ts.
End Copy.

Definition given (d : option byte) : bool := match d with Some _ => true | None => false end.

(** The line of what follows a text, the first line being one. *)
Definition line_behind (text : list Z) : Z := 1 + Z.of_nat (count_occ Z.eq_dec text 10).

(** These runes are read, one by one, from the reader of the data. *)
Inductive data_read {X : FloatLib} {L : CaseLib} {U : RuneLib} {B : BufLib} : parser -> list Z -> parser -> Prop :=
| dr_none p : data_read p [] p
| dr_rune p r s l q : runeReaderReadRune (p_scanner p) = (Some r, s) -> data_read (set_scanner p s) l q -> data_read p (r :: l) q.
