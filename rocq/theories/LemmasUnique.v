(** A text is split into tokens in one way. *)

From Verif Require Import ModelParser SpecScanner SpecTokens SpecAccepts LemmasBase LemmasScanProps.

Section Unique.
  Context {X : FloatLib} {L : CaseLib} {U : RuneLib} (HU : RuneLib_scan U).

  Lemma rune_token w r f l : lexeme w (TRune r) f l -> r < -10 \/ 0 <= r.
  Proof.
    intros H. inversion H; subst.
    - match goal with H : In _ _ |- _ => cbn in H end. lia.
    - match goal with H : op_alone _ _ |- _ => destruct H as [H _]; cbn in H end. lia.
    - match goal with H : In _ _ |- _ => cbn in H; repeat destruct H as [H|H]; try contradiction; injection H as <- <- <- end; lia.
  Qed.

  Section Scanner.
    Context {B : BufLib}.

    Lemma held_same w v f l w' v' f' l' : lexeme w v f l -> lexeme w' v' f' l' ->
      (forall t, exists s c, holds t v s c /\ holds t v' s c) -> same_value v v'.
    Proof.
      intros Hx Hx' H. destruct (H idt_init) as (s0 & c0 & H0 & H0').
      destruct v as [|n q|b|b|i|p|i|r]; destruct v' as [|n' q'|b'|b'|i'|p'|i'|r']; try (apply rune_token in Hx); try (apply rune_token in Hx');
        cbn [holds] in H0, H0'; repeat match goal with K : _ /\ _ |- _ => destruct K end;
        try (match goal with A : c_token c0 = if ?e then _ else _ |- _ => destruct e end);
        try (left; congruence); try (exfalso; lia); try (exfalso; congruence).
      all: right; intros t; destruct (H t) as (s & c & (A1 & A2 & A3) & (B1 & B2 & B3)); clear H;
      (split; [rewrite (surjective_pairing (ID t n q)), (surjective_pairing (ID t n' q')); congruence|]); rewrite A3 in B3; rewrite <- A1;
      destruct q, q'; cbn [negb andb] in B3; auto; right; destruct (Z.ltb_spec (c_ident c) 0); (lia || discriminate).

    Qed.

    Lemma one_token input s g w v f l g' w' v' f' l' : scanning input s -> rest s = g ++ w ++ f -> rest s = g' ++ w' ++ f' -> gap g -> gap g' ->
      lexeme w v f l -> lexeme w' v' f' l' -> same_value v v' /\ l = l' /\ exists s', scanning input s' /\ rest s' = l.
    Proof.
      intros H R R' G G' Hx Hx'. split; [|split].
      - apply (held_same _ _ _ _ _ _ _ _ Hx Hx'). intros t. pose proof (sc_ids _ _ t H) as H1.
        destruct (complete HU _ _ c_zero _ _ _ _ _ H1 R G Hx) as (s1 & c1 & E1 & _ & K1). destruct (complete HU _ _ c_zero _ _ _ _ _ H1 R' G' Hx') as (s2 & c2 & E2 & _ & K2).
        rewrite E1 in E2. injection E2 as <- <-. exists s1, c1. now split.
      - destruct (complete HU _ _ c_zero _ _ _ _ _ H R G Hx) as (s1 & c1 & E1 & K1 & _). destruct (complete HU _ _ c_zero _ _ _ _ _ H R' G' Hx') as (s2 & c2 & E2 & K2 & _).
        rewrite E1 in E2. injection E2 as <- <-. congruence.
      - destruct (complete HU _ _ c_zero _ _ _ _ _ H R G Hx) as (s1 & c1 & E1 & K1 & _). exists s1. split; [|exact K1]. eapply sc_scan; eassumption.
    Qed.
    Lemma no_end input s g w v f l g' e : scanning input s -> rest s = g ++ w ++ f -> rest s = g' ++ e -> gap g -> gap g' -> lexeme w v f l -> no_token e -> False.
    Proof.
      intros H R R' G G' Hx N. destruct (complete HU _ _ c_zero _ _ _ _ _ H R G Hx) as (s1 & c1 & E1 & _ & K1). destruct (dropped HU _ _ c_zero _ _ H R' G' N) as (s2 & E2 & _).
      rewrite E1 in E2. injection E2 as <- ->. destruct (lexeme_holds_token _ _ _ _ _ _ _ Hx K1) as [K _]. now apply K.
    Qed.

    (** A statement with its end, token by token. *)
    Inductive parts : list Z -> list tokval -> list Z -> Prop :=
    | pa_end g w f left : gap g -> lexeme w TEnd f left -> parts (g ++ w ++ f) [] left
    | pa_eof g e : gap g -> no_token e -> parts (g ++ e) [] []
    | pa_more g w v f l vs left : gap g -> lexeme w v f l -> v <> TEnd -> parts l vs left -> parts (g ++ w ++ f) (v :: vs) left.
    Lemma text_parts text vs left : statement_text text vs left -> ~ In TEnd vs -> parts text vs left.
    Proof.
      intros [t v l H|t v g e H G N] NE.
      - revert t H. induction v as [|x v IH]; intros t H; cbn [app] in H; inversion H; subst.
        + match goal with K : tokens _ [] _ |- _ => inversion K; subst end. now econstructor.
        + econstructor; try eassumption; [|apply IH; [|assumption]]; intros K; apply NE; [now left|now right].
      - revert t H. induction v as [|x v IH]; intros t H; inversion H; subst; [now constructor|].
        econstructor; try eassumption; [|apply IH; [|assumption]]; intros K; apply NE; [now left|now right].
    Qed.
    Lemma end_not v : same_value TEnd v -> v = TEnd.
    Proof. intros [H|H]; [now symmetry|destruct v; contradiction]. Qed.
    Lemma not_end v : same_value v TEnd -> v = TEnd.
    Proof. intros [H|H]; [exact H|destruct v; contradiction]. Qed.
    Lemma parts_fun text vs left : parts text vs left -> forall input s vs' left', scanning input s -> rest s = text -> parts text vs' left' ->
      Forall2 same_value vs vs' /\ left = left'.
    Proof.
      induction 1 as [g w f left G Hx|g e G N|g w v f l vs left G Hx NV H IH]; intros input s vs' left' S R P'.
      - inversion P' as [g' w' f' lf' G' Hx' EQ|g' e' G' N' EQ|g' w' v' f' l' vs2 lf' G' Hx' NV' H' EQ]; subst.
        + rewrite <- EQ in R. destruct (one_token _ _ _ _ _ _ _ _ _ _ _ _ S R (eq_trans R EQ) G' G Hx' Hx) as (_ & E & _). split; [constructor|now symmetry].
        + exfalso. exact (no_end _ _ _ _ _ _ _ _ _ S R (eq_trans R (eq_sym EQ)) G G' Hx N').
        + exfalso. destruct (one_token _ _ _ _ _ _ _ _ _ _ _ _ S R (eq_trans R (eq_sym EQ)) G G' Hx Hx') as (E & _). now apply end_not in E.
      - inversion P' as [g' w' f' lf' G' Hx' EQ|g' e' G' N' EQ|g' w' v' f' l' vs2 lf' G' Hx' NV' H' EQ]; subst.
        + exfalso. exact (no_end _ _ _ _ _ _ _ _ _ S (eq_trans R (eq_sym EQ)) R G' G Hx' N).
        + split; [constructor|reflexivity].
        + exfalso. exact (no_end _ _ _ _ _ _ _ _ _ S (eq_trans R (eq_sym EQ)) R G' G Hx' N).
      - inversion P' as [g' w' f' lf' G' Hx' EQ|g' e' G' N' EQ|g' w' v' f' l' vs2 lf' G' Hx' NV' H' EQ]; subst.
        + exfalso. destruct (one_token _ _ _ _ _ _ _ _ _ _ _ _ S R (eq_trans R (eq_sym EQ)) G G' Hx Hx') as (E & _). now apply not_end in E.
        + exfalso. exact (no_end _ _ _ _ _ _ _ _ _ S R (eq_trans R (eq_sym EQ)) G G' Hx N').
        + destruct (one_token _ _ _ _ _ _ _ _ _ _ _ _ S R (eq_trans R (eq_sym EQ)) G G' Hx Hx') as (E & -> & s' & S' & R').
          destruct (IH input s' vs2 left' S' R' H') as [F ->]. split; [now constructor|reflexivity].
    Qed.
    Lemma scanner_unique input s vs left vs' left' : scanning input s -> statement_text (rest s) vs left -> statement_text (rest s) vs' left' ->
      ~ In TEnd vs -> ~ In TEnd vs' -> Forall2 same_value vs vs' /\ left = left'.
    Proof.
      intros S H H' N N'. apply text_parts in H; [|exact N]. apply text_parts in H'; [|exact N']. exact (parts_fun _ _ _ H _ _ _ _ S eq_refl H').
    Qed.
    (** Tokens at the start of a statement. *)
    Lemma tokens_parts text vs' mid : tokens text vs' mid -> ~ In TEnd vs' -> forall input s vs left, scanning input s -> rest s = text -> parts text vs left ->
      exists vs1 vs2, vs = vs1 ++ vs2 /\ Forall2 same_value vs' vs1 /\ parts mid vs2 left.
    Proof.
      induction 1 as [l|g w v f l vs' mid G Hx H IH]; intros NE input s vs left S R P'.
      - exists [], vs. split; [reflexivity|]. split; [constructor|exact P'].
      - inversion P' as [g' w' f' lf' G' Hx' EQ|g' e' G' N' EQ|g' w' v' f' l' vs2 lf' G' Hx' NV' H' EQ]; subst.
        + exfalso. destruct (one_token _ _ _ _ _ _ _ _ _ _ _ _ S R (eq_trans R (eq_sym EQ)) G G' Hx Hx') as (E & _). apply not_end in E. apply NE. now left.
        + exfalso. exact (no_end _ _ _ _ _ _ _ _ _ S R (eq_trans R (eq_sym EQ)) G G' Hx N').
        + destruct (one_token _ _ _ _ _ _ _ _ _ _ _ _ S R (eq_trans R (eq_sym EQ)) G G' Hx Hx') as (E & -> & s' & S' & R').
          destruct (IH (fun K => NE (or_intror K)) input s' vs2 left S' R' H') as (vs1 & vs3 & -> & F & K). exists (v' :: vs1), vs3. split; [reflexivity|]. split; [now constructor|exact K].
    Qed.
  End Scanner.

  Lemma text_unique text vs left vs' left' : Forall (fun r => 0 <= r <= 1114111) text -> statement_text text vs left -> statement_text text vs' left' ->
    ~ In TEnd vs -> ~ In TEnd vs' -> Forall2 same_value vs vs' /\ left = left'.
  Proof.
    intros V. pose (B := {| x_extra := fun n => n |} : BufLib). exact (scanner_unique (B := B) text (scannerInit idt_init text) vs left vs' left' (sc_start (B := B) _ _ V)).
  Qed.

  (** What the tokens say does not depend on the spelling of names. *)
  Lemma same_read T v v' k : same_value v v' -> token_read T v k -> token_read T v' k.
  Proof.
    intros [->|H] K; [exact K|]. destruct v as [|n q|b|b|i|p|i|r]; destruct v' as [|n' q'|b'|b'|i'|p'|i'|r']; try contradiction. destruct (H T) as [E D].
    inversion K as [v k0 K1|]; subst. constructor. inversion K1; subst; rewrite E in *; destruct q'; try (destruct D as [D|D]; [discriminate|]); cbn [snd] in *;
      match goal with Q : ID T n' _ = (T, ?i) |- _ => rewrite Q in *; cbn [snd] in * end; try lia; (now constructor).
  Qed.
  Lemma same_reads T vs vs' ts : Forall2 same_value vs vs' -> Forall2 (token_read T) vs ts -> Forall2 (token_read T) vs' ts.
  Proof.
    intros H. revert ts. induction H as [|v v' vs vs' Hv H IH]; intros ts K; inversion K; subst; constructor; [|now apply IH]. eapply same_read; eassumption.
  Qed.
End Unique.
