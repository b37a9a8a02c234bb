(** Concrete positions for the examples. *)

From Verif Require Import ModelScanner SpecScanner SpecPosition LemmasBase LemmasDemo LemmasDemoTyped LemmasDemoEngine LemmasDemoScan LemmasScanner LemmasScanProps LemmasPosition.

Lemma demo_tokenizing text : tokenizing (runes text) (demo_scanner text).
Proof.
  constructor. unfold runes. apply Forall_forall. intros r H. apply in_map_iff in H. destruct H as (b & <- & _). pose proof (bz_range b). lia.
Qed.

(** The token, the line and the column of the first [n] tokens, all scanned into
    one context. *)
Fixpoint demo_positions (n : nat) (s : scanner) (c : sctx) : list (Z * Z * Z) :=
  match n with
  | O => []
  | S n' => match Scan s c with None => [] | Some (s', c') => (c_token c', c_line c', c_column c') :: demo_positions n' s' c' end
  end.

(** Behind the first [n] tokens. *)
Fixpoint demo_behind (n : nat) (s : scanner) (c : sctx) : scanner * sctx :=
  match n with
  | O => (s, c)
  | S n' => match Scan s c with None => (s, c) | Some (s', c') => demo_behind n' s' c' end
  end.

Lemma demo_behind_tokenizing text n : tokenizing (runes text) (fst (demo_behind n (demo_scanner text) c_zero)).
Proof.
  pose proof (demo_tokenizing text) as H. revert H. generalize (demo_scanner text), c_zero. induction n as [|n IH]; intros s c H; cbn [demo_behind]; [exact H|].
  destruct (Scan s c) as [[s' c']|] eqn:E; [|exact H]. apply IH. exact (tz_scan _ _ _ _ _ H E).
Qed.

Lemma demo_position text s' c' w v f l (Q : tokval -> Prop) : Q v -> Scan (demo_scanner text) c_zero = Some (s', c') -> runes text = w ++ f -> lexeme w v f l ->
  positions_right Q -> position (firstn 1 w) (c_line c') (c_column c').
Proof.
  intros Hq E R Hx H. exact (H _ _ _ _ demo_U_scan (runes text) [] (demo_scanner text) c_zero [] w v f l s' c' Hq (demo_tokenizing text) eq_refl R gap_nil Hx E).
Qed.

Lemma demo_position_of r : r <> 10 -> position [r] 1 1.
Proof. intros N. exact (position_rune [] 1 0 r N position_nil). Qed.

Lemma end_not_right : ~ positions_right (eq TEnd).
Proof.
  intros H. destruct (Scan (demo_scanner ";") c_zero) as [[s' c']|] eqn:E; [|vm_compute in E; discriminate].
  pose proof (demo_position ";" s' c' [59] TEnd [] [] _ eq_refl E eq_refl (lx_end []) H) as P.
  destruct (position_unique _ _ _ _ _ P (demo_position_of 59 ltac:(lia))) as [K _].
  vm_compute in E. injection E as <- <-. discriminate K.
Qed.

Definition demo_slash : String.string := "/
b".
Lemma sign_not_right : ~ positions_right (fun v => v <> TEnd).
Proof.
  intros H. destruct (Scan (demo_scanner demo_slash) c_zero) as [[s' c']|] eqn:E; [|vm_compute in E; discriminate].
  assert (Hx : lexeme [47] (TRune 47) [10; 98] [10; 98]).
  { apply lx_op. repeat split; try discriminate; [cbn; tauto|]. intros _ _. cbn. intros [K _]. repeat (destruct K as [K|K]; [discriminate|]). exact K. }
  pose proof (demo_position demo_slash s' c' [47] (TRune 47) [10; 98] [10; 98] (fun v => v <> TEnd) ltac:(discriminate) E eq_refl Hx H) as P.
  destruct (position_unique _ _ _ _ _ P (demo_position_of 47 ltac:(lia))) as [K _].
  vm_compute in E. injection E as <- <-. discriminate K.
Qed.
