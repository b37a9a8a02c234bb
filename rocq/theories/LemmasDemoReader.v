(** Readers that fail, for the examples of C68. *)

From Verif Require Import ModelScanner ModelReader SpecScanner SpecReader LemmasBase LemmasDemo LemmasDemoTyped LemmasDemoEngine LemmasDemoScan LemmasReader.

(** The scanner for a text, a failing read and another text. *)
Definition demo_failing (text behind : String.string) : scanner := scannerInit idt_init (runes text ++ -3 :: runes behind).

Lemma runes_pos text : Forall (fun r => 0 <= r) (runes text).
Proof. unfold runes. apply Forall_forall. intros r H. apply in_map_iff in H. destruct H as (b & <- & _). pose proof (bz_range b). lia. Qed.

Lemma demo_reading text behind : reading (demo_failing text behind).
Proof.
  constructor. apply Forall_app. split; [|constructor; [now left|]]; eapply Forall_impl; try apply runes_pos; now right.
Qed.

(** The first [n] tokens, and how much is left to be read behind each. *)
Fixpoint demo_reads (n : nat) (s : scanner) : list (shown * Z * option serror) :=
  match n with
  | O => []
  | S n' => match ScanE s c_zero with None => [] | Some (s', c') => (show s' c', zlen (s_in s'), c_error c') :: demo_reads n' s' end
  end.

Lemma plus_fails : exists s' c', ScanE (demo_failing "+" "1") c_zero = Some (s', c') /\ s_in s' = runes "1" /\ c_token c' = 43 /\ c_error c' = Some SRead.
Proof.
  destruct (ScanE (demo_failing "+" "1") c_zero) as [[s' c']|] eqn:E; [|exfalso; revert E; vm_compute; discriminate].
  exists s', c'. split; [reflexivity|].
  pose proof (f_equal (option_map (fun x => (s_in (fst x), c_token (snd x), c_error (snd x)))) E) as K. cbn [option_map fst snd] in K.
  assert (K2 : Some (s_in s', c_token c', c_error c') = Some (runes "1", 43, Some SRead)) by (rewrite <- K; vm_compute; reflexivity). now injection K2.
Qed.

Lemma told_refuted : ~ (forall s c u m s' c', reading s -> s_in s = u ++ -3 :: m -> Forall (fun r => 0 <= r) u -> ScanE s c = Some (s', c') -> s_in s' = m -> told s' c').
Proof.
  intros H. destruct plus_fails as (s' & c' & E & E1 & E2 & _). destruct (H (demo_failing "+" "1") _ (runes "+") (runes "1") s' c' (demo_reading _ _) eq_refl (runes_pos _) E E1) as [K _]. rewrite E2 in K. discriminate K.
Qed.
