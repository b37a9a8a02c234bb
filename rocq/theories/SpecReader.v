(** Specification for property C68: reading from what may fail. *)

From Verif Require Import ModelScanner ModelReader SpecScanner.

(** The scanner, reading something else. *)
Definition with_in (s : scanner) (l : list Z) : scanner :=
  {| s_in := l; s_unread := s_unread s; s_read := s_read s; s_line := s_line s; s_column := s_column s;
     s_buffer := s_buffer s; s_ids := s_ids s |}.

(** What a reader may deliver: runes and errors. *)
Definition item (r : Z) : Prop := r = tError \/ 0 <= r.

Section Reading.
  Context {X : FloatLib} {L : CaseLib} {U : RuneLib} {B : BufLib}.

  (** The states of a scanner that reads from what may fail. *)
  Inductive reading : scanner -> Prop :=
  | rd_start ids items : Forall item items -> reading (scannerInit ids items)
  | rd_scan s c s' c' : reading s -> ScanE s c = Some (s', c') -> reading s'
  | rd_ids s t : reading s -> reading (set_ids s t).

  (** A read failed, and the token is an error with that error. *)
  Definition told (s : scanner) (c : sctx) : Prop :=
    c_token c = tError /\ c_error c = Some SRead /\ s_unread s = false.

  (** Tokens the end of which the scanner sees at the rune behind them only,
      and without looking whether there was an error: constants, one of five
      letters, and operators. *)
  Definition untold_token (s : scanner) (k : Z) : Prop :=
    k = tString \/ k = tBytes \/ op_rune k \/
    ((k = tIdentifier \/ k = tReserved) /\ exists r, In r [101; 69; 98; 120; 88] /\ b_string (s_buffer s) = utf8_encode r).

  (** A read failed, and the token is what it would be at the end of the text
      [u]; a rune 0 was put back. *)
  Definition untold (s : scanner) (c : sctx) (u : list Z) (s' : scanner) (c' : sctx) : Prop :=
    untold_token s' (c_token c') /\ s_unread s' = true /\ s_read s' = 0 /\
    exists s0 c0, Scan (with_in s u) c = Some (s0, c0) /\ c' = set_error c0 SRead.

  (** A read failed, and the error is another one, that of the end of the text. *)
  Definition mistold (s : scanner) (c : sctx) (u : list Z) (c' : sctx) : Prop :=
    c_token c' = tError /\ c_error c' = Some SExpectedParameter /\
    exists s0, Scan (with_in s u) c = Some (s0, c').
End Reading.
