(** A concrete scanner for the examples. *)

From Verif Require Import ModelScanner SpecScanner LemmasBase LemmasDemo LemmasDemoTyped LemmasDemoEngine LemmasScanProps.

Definition demo_B : BufLib := {| x_extra := fun n => Nat.modulo n 16 |}.
#[global] Existing Instances demo_U demo_B.

Lemma demo_U_scan : RuneLib_scan demo_U.
Proof.
  unfold RuneLib_scan. cbn [demo_U x_is_letter x_is_digit x_is_space].
  split; [|split; [|split]]; intros r; rewrite ?Bool.orb_true_iff, ?Bool.andb_true_iff, ?Z.leb_le, ?Z.eqb_eq.
  - intros H. repeat split; rewrite ?Bool.orb_true_iff, ?Bool.andb_true_iff, ?Z.leb_le, ?Z.eqb_eq; lia.
  - lia.
  - intros H. split; apply Bool.not_true_iff_false; rewrite ?Bool.orb_true_iff, ?Bool.andb_true_iff, ?Z.leb_le, ?Z.eqb_eq; lia.
  - intros H. apply Bool.not_true_iff_false; rewrite ?Bool.orb_true_iff, ?Bool.andb_true_iff, ?Z.leb_le, ?Z.eqb_eq; lia.
Qed.

(** The scanner for a text, before the first token. *)
Definition demo_scanner (text : String.string) : scanner := scannerInit idt_init (runes text).

Lemma demo_scanning text : scanning (runes text) (demo_scanner text).
Proof.
  constructor. unfold runes. apply Forall_forall. intros r H. apply in_map_iff in H. destruct H as (b & <- & _). pose proof (bz_range b). lia.
Qed.

(** The first [n] tokens: the token and what goes with it, with the bytes as they
    are just after the token was read. *)
Inductive shown : Set :=
| Shown (token : Z) | ShownName (token : Z) (name : bytes) | ShownText (s : bytes) | ShownBytes (b : bytes)
| ShownInteger (i : Z) | ShownError (e : option serror).
Definition show (s : scanner) (c : sctx) : shown :=
  if (c_token c =? -4) || (c_token c =? -5) then ShownName (c_token c) (idString (s_ids s) (c_ident c))
  else if c_token c =? -6 then ShownText (c_string c)
  else if c_token c =? -7 then ShownBytes (b_look (s_buffer s) (c_bytes c))
  else if c_token c =? -8 then ShownInteger (c_integer c)
  else if c_token c =? -3 then ShownError (c_error c)
  else Shown (c_token c).
Fixpoint demo_scans (n : nat) (s : scanner) : list shown :=
  match n with
  | O => []
  | S n' => match Scan s c_zero with None => [] | Some (s', c') => show s' c' :: demo_scans n' s' end
  end.
