(** Specification for property C73: what an error says was expected and found. *)

From Verif Require SpecInfo.
From Verif Require Import SpecPlace ModelGot.
From Verif Require SpecCast.

(** The text for a token without anything else: runes, operators and numbers of
    tokens. *)
Inductive token_says (t : Z) : bytes -> Prop :=
| ts_rune w : 0 < t -> SpecInfo.code_point t -> SpecCast.utf8_char t w -> token_says t (str "rune " ++ w)
| ts_no_rune w : 0 < t -> ~ SpecInfo.code_point t -> SpecCast.utf8_char 65533 w -> token_says t (str "rune " ++ w)
| ts_operator s : In (t, s) [(-11, "||"); (-12, "<<"); (-13, "<="); (-14, "<>"); (-15, ">>"); (-16, ">="); (-17, "=="); (-18, "!=")]%string ->
    token_says t (str s)
| ts_number n : t <= 0 -> ~ -18 <= t <= -11 -> SpecCast.decimal t n -> token_says t (str "token " ++ n).

Section Got.
  Context {W : GotLib}.

  (** The text for the token of a context. *)
  Inductive found_says (T : idtable) (c : sctx) : bytes -> Prop :=
  | fs_eof : c_token c = -1 -> found_says T c (str "end of file")
  | fs_end : c_token c = -2 -> found_says T c (str "end of statement (;)")
  | fs_error : c_token c = -3 -> c_error c <> None -> found_says T c (str "error " ++ x_lexical c)
  | fs_identifier : c_token c = -4 -> found_says T c (str "identifier " ++ idString T (c_ident c))
  | fs_reserved : c_token c = -5 -> found_says T c (str "reserved identifier " ++ idString T (c_ident c))
  | fs_string : c_token c = -6 -> found_says T c (str "string " ++ x_quote (c_string c))
  | fs_bytes : c_token c = -7 -> found_says T c (str "bytes " ++ c_string c)
  | fs_integer n : c_token c = -8 -> SpecCast.decimal (c_integer c) n -> found_says T c (str "integer " ++ n)
  | fs_float : c_token c = -9 -> found_says T c (str "float " ++ x_fixed (c_float c))
  | fs_token t : ~ -9 <= c_token c <= -1 -> token_says (c_token c) t -> found_says T c t.

  (** Different strings are quoted differently. *)
  Definition GotLib_ok : Prop := forall s s', x_quote s = x_quote s' -> s = s'.
End Got.

(** The tokens whose text tells which one they are: not errors, bytes, floats and
    parameters. *)
Definition telling (c : sctx) : Prop :=
  ~ In (c_token c) [-3; -7; -9; -10] /\ (0 < c_token c -> SpecInfo.code_point (c_token c)).

(** Two contexts have the same token, with names of the same spelling. *)
Definition same_token (T : idtable) (c d : sctx) : Prop :=
  c_token c = c_token d /\
  (c_token c = -4 \/ c_token c = -5 -> idString T (c_ident c) = idString T (c_ident d)) /\
  (c_token c = -6 -> c_string c = c_string d) /\
  (c_token c = -8 -> c_integer c = c_integer d).

(** What is expected: nothing, one, or several alternatives. *)
Inductive listed : list bytes -> bytes -> Prop :=
| li_one s : listed [s] s
| li_more s l t : listed l t -> listed (s :: l) (s ++ str ", " ++ t).

Inductive alternatives : list bytes -> bytes -> Prop :=
| al_none : alternatives [] []
| al_one s : alternatives [s] s
| al_more l t s : listed l t -> alternatives (l ++ [s]) (t ++ str ", or " ++ s).

(** What an error says that was expected, with what follows. *)
Inductive expected_says (T : idtable) (g : bytes) : expecting -> bytes -> Prop :=
| ex_reserved ids a : alternatives (map (idString T) ids) a ->
    expected_says T g (XReserved ids) (str "expected keyword " ++ a ++ str "; got " ++ g)
| ex_identifier msg : expected_says T g (XIdentifier msg) (msg ++ str ", got " ++ g)
| ex_tokens rs ts a : Forall2 token_says rs ts -> alternatives ts a ->
    expected_says T g (XTokens rs) (str "expected " ++ a ++ str ", got " ++ g)
| ex_integer lo hi l h : SpecCast.decimal lo l -> SpecCast.decimal hi h ->
    expected_says T g (XInteger lo hi) (str "expected a number between " ++ l ++ str " and " ++ h ++ str " inclusive, got " ++ g)
| ex_end : expected_says T g XEnd (str "expected the end of the statement, got " ++ g).

(** The token of a context is one that is expected. *)
Definition expected (e : expecting) (c : sctx) : Prop :=
  match e with
  | XReserved ids => c_token c = -5 /\ In (c_ident c) ids
  | XIdentifier _ => c_token c = -4
  | XTokens rs => In (c_token c) rs
  | XInteger lo hi => c_token c = -8 /\ lo <= c_integer c <= hi
  | XEnd => c_token c = -1 \/ c_token c = -2
  end.

(** The token of a context is an error without one. *)
Definition no_error (c : sctx) : Prop := c_token c = -3 /\ c_error c = None.
