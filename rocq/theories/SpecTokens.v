(** From the text to the tokens the grammar speaks of. *)

From Verif Require Export SpecParser SpecGrammar.

Section Tokens.
  Context {X : FloatLib} {L : CaseLib} {U : RuneLib}.

  (** The text starts with these tokens, with white space and comments in front of
      them; the rest of it is left. *)
  Inductive tokens : list Z -> list tokval -> list Z -> Prop :=
  | tks_none l : tokens l [] l
  | tks_more g w v f l vs left : gap g -> lexeme w v f l -> tokens l vs left -> tokens (g ++ w ++ f) (v :: vs) left.

  (** These tokens are followed by a semicolon or the end of the text. *)
  Inductive statement_text : list Z -> list tokval -> list Z -> Prop :=
  | stx_end text vs left : tokens text (vs ++ [TEnd]) left -> statement_text text vs left
  | stx_eof text vs g e : tokens text vs (g ++ e) -> gap g -> no_token e -> statement_text text vs [].

  (** The same but for the spelling of a name: a keyword that is reserved is not the
      same when it is quoted. *)
  Definition same_value (v v' : tokval) : Prop :=
    v = v' \/
    match v, v' with
    | TName n q, TName n' q' => forall t, ID t n q = ID t n' q' /\ (q = q' \/ 0 <= snd (ID t n q))
    | _, _ => False
    end.

  (** The tables of identifiers there can be; whether a table has a name; and a
      table that was extended, perhaps. *)
  Definition real (t : idtable) : Prop := exists ths, idreach (t, ths).
  Definition knows (t : idtable) (n : bytes) (quoted : bool) : Prop := fst (ID t n quoted) = t.
  Definition later (t T : idtable) : Prop :=
    forall n quoted, knows t n quoted -> ID T n quoted = (T, snd (ID t n quoted)).

  (** The number of a name, and the name of a number. *)
  Definition number (T : idtable) (n : bytes) : Z := snd (ID T n false).

  (** A token as the grammar has it: names are numbers.  Literals of bytes are left
      out. *)
  Inductive token_in (T : idtable) : tokval -> tok -> Prop :=
  | ti_end : token_in T TEnd KEnd
  | ti_word n i : ID T n false = (T, i) -> i < 0 -> token_in T (TName n false) (KReserved i)
  | ti_name n i : ID T n false = (T, i) -> 0 <= i -> token_in T (TName n false) (KIdent i)
  | ti_quoted n i : ID T n true = (T, i) -> token_in T (TName n true) (KIdent i)
  | ti_string s : token_in T (TString s) (KString s)
  | ti_integer i : token_in T (TInteger i) (KInteger i)
  | ti_float p : token_in T (TFloat p) (KFloat p)
  | ti_parameter i : token_in T (TParameter i) (KParameter i)
  | ti_rune r : token_in T (TRune r) (KRune r).

  (** The text says the statement, given the numbers of the names. *)
  Definition text_says {P : PrintLib} (T : idtable) (vs : list tokval) (s : stmt) : Prop :=
    exists ts, Forall2 (token_in T) vs ts /\ says (number T) (idString T) s ts.

  (** The text is the expression, as it is read from left to right; or grouped. *)
  Definition text_reads (T : idtable) (vs : list tokval) (e : expr) : Prop :=
    exists ts, Forall2 (token_in T) vs ts /\ sub (number T) (idString T) e ts.
  Definition text_is (T : idtable) (vs : list tokval) (e : expr) : Prop :=
    exists e0, text_reads T vs e0 /\ tight e /\ words e = words e0.
End Tokens.
