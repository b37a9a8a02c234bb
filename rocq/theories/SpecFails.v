(** Specification for property C70: parsing what may fail to be read. *)

From Verif Require Import ModelParserReader SpecReader.

(** What the parser's reader has still to deliver, and the parser with another
    reader. *)
Definition p_in (p : parser) : list Z := s_in (p_scanner p).
Definition instead (p : parser) (l : list Z) : parser := set_scanner p (with_in (p_scanner p) l).

(** Runes, and no error among them. *)
Definition text (l : list Z) : Prop := Forall (fun r => 0 <= r) l.

(** How many reads will fail. *)
Fixpoint fails (l : list Z) : nat :=
  match l with
  | [] => 0
  | r :: l => if r =? tError then S (fails l) else fails l
  end.

Definition copying (s : option stmt) : Prop := exists tn cols line delim, s = Some (SCopy tn cols line delim).

(** What one read of the data of a COPY is for a rune or a failure; [n] reads. *)
Definition data_of (r : Z) : data_read := if r =? tError then DError else DRune r.
Fixpoint data_reads (n : nat) (s : scanner) : list data_read * scanner :=
  match n with
  | O => ([], s)
  | S n' =>
      let '(d, s1) := runeReaderReadRuneE s in
      let '(l, s2) := data_reads n' s1 in (d :: l, s2)
  end.
Definition newlines (l : list Z) : Z := Z.of_nat (count_occ Z.eq_dec l 10).

Section Fails.
  Context {X : FloatLib} {L : CaseLib} {U : RuneLib} {B : BufLib} {P : PrintLib}.

  (** The parsers met: statements were parsed, identifiers were registered and data
      was read (COPY). *)
  Inductive feeding : parser -> Prop :=
  | fd_start ids items : Forall item items -> feeding (newParser ids items)
  | fd_stmt p s p' : feeding p -> ParseE p = PStmt s p' -> feeding p'
  | fd_error p p' : feeding p -> ParseE p = PErr p' -> feeding p'
  | fd_eof p p' : feeding p -> ParseE p = PEOF p' -> feeding p'
  | fd_ids p t : feeding p -> feeding (set_scanner p (set_ids (p_scanner p) t))
  | fd_data p : feeding p -> feeding (set_scanner p (snd (runeReaderReadRuneE (p_scanner p)))).

  (** The read behind the text [u] that fails, and what is behind it, [m], were not
      reached: whatever text followed [u], the result would be the same, and [v] of
      [u] would be left. *)
  Definition unreached (p : parser) (u m : list Z) (r : parsed) : Prop :=
    match r with
    | PStmt s q => exists v, text v /\ p_in q = v ++ tError :: m /\ forall t, text t -> Parse (instead p (u ++ t)) = PStmt s (instead q (v ++ t))
    | PErr q => exists v, text v /\ p_in q = v ++ tError :: m /\ forall t, text t -> Parse (instead p (u ++ t)) = PErr (instead q (v ++ t))
    | PCrash => forall t, text t -> Parse (instead p (u ++ t)) = PCrash
    | PEOF _ | PStuck => False
    end.

  (** The read failed: that is an error, unless it happened behind a COPY.  At most
      one more read failed. *)
  Definition reached (m : list Z) (r : parsed) : Prop :=
    match r with
    | PStmt s q => copying s /\ (fails m <= S (fails (p_in q)))%nat
    | PErr q => (fails m <= S (fails (p_in q)))%nat
    | PCrash => True
    | PEOF _ | PStuck => False
    end.
End Fails.
