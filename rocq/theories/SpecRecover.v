(** Where a call of the parser starts and ends, and when two parsers have the same
    left to read. *)

From Verif Require Export SpecParser SpecTokens.

Section Recover.
  Context {X : FloatLib} {L : CaseLib} {U : RuneLib} {B : BufLib} {P : PrintLib}.

  (** [t'] is [t] after reading on up to and with the next semicolon; there is no
      lexical error and no end of the file in front of it. *)
  Inductive behind_next : tape -> tape -> Prop :=
  | bn_end t t' : t_next t = Some (t', false) -> t_tok t' = KEnd -> behind_next t t'
  | bn_more t t1 t' : t_next t = Some (t1, false) -> t_tok t1 <> KEnd -> t_tok t1 <> KEOF ->
      behind_next t1 t' -> behind_next t t'.

  (** The next token is none of these. *)
  Definition goes_on (t : tape) : Prop :=
    exists t', t_next t = Some (t', false) /\ t_tok t' <> KEOF.

  (** Where a call starts parsing: behind the next semicolon after a statement that
      was left unfinished. *)
  Definition starts (failed : bool) (t t0 : tape) : Prop :=
    if failed then behind_next t t0 else t0 = t.

  (** The same is left to read. *)
  Definition alike (t u : tape) : Prop :=
    t_scanner t = t_scanner u /\ map tok_of (t_ahead t) = map tok_of (t_ahead u).
  Definition alike_parsers (input : list Z) (p q : parser) : Prop :=
    p_failed p = p_failed q /\ exists t u, in_step input p t /\ in_step input q u /\ alike t u.

  (** The same is returned, and then again. *)
  Definition alike_results (input : list Z) (r r' : parsed) : Prop :=
    match r, r' with
    | PStmt s p, PStmt s' q => s = s' /\ alike_parsers input p q
    | PErr p, PErr q => alike_parsers input p q
    | PEOF p, PEOF q => alike_parsers input p q
    | PCrash, PCrash => True
    | _, _ => False
    end.
End Recover.
