(** Reasoning about the parser's actions: the tokens read so far, how many are
    put back, and a bound for what is left. *)

From Verif Require Import ModelParser SpecParser LemmasBase.

Definition weight (t : tok) : nat := match t with KEOF => 0 | _ => 1 end.

Section Wp.
  Variable bad : bool.      (* whether an error token without error may be read *)
  Variable C : list tok -> Prop.  (* what must hold for a panic *)
  Variable M : nat.         (* a bound for what is left when an error is reported *)

  Definition fine (t : tok) : Prop := t <> KError true /\ (bad = false -> t <> KError false).

  Fixpoint wp {A} (past : list tok) (u m : nat) (g : act A) (Q : list tok -> nat -> nat -> A -> Prop) : Prop :=
    match g with
    | ARet a => Q past u m a
    | AError => (u < 3)%nat /\ (m <= M)%nat
    | ACrash => C past
    | AFuel => False
    | AScan k =>
        (m <= S M)%nat /\ wp (KEOF :: past) (pred u) m (k KEOF) Q /\
        forall t m', fine t -> t <> KEOF -> S m' = m -> wp (t :: past) (pred u) m' (k t) Q
    | AUnscan k => (u < 3)%nat /\ match past with [] => False | t :: p => wp p (S u) (m + weight t) k Q end
    | ATok k => (u < 3)%nat /\ match past with [] => False | t :: _ => wp past u m (k t) Q end
    | AIntern s k => forall i, wp past u m (k i) Q
    | AName i k => forall s, wp past u m (k s) Q
    | ABytes l k => forall b, wp past u m (k b) Q
    | AReader k => forall z, wp past u m (k z) Q
    end.

  Lemma wp_mono {A} (g : act A) : forall past u m (Q Q' : list tok -> nat -> nat -> A -> Prop),
    (forall p u m a, Q p u m a -> Q' p u m a) -> wp past u m g Q -> wp past u m g Q'.
  Proof.
    induction g as [a| | | |k IH|k IH|k IH|s k IH|i k IH|l k IH|k IH]; intros past u m Q Q' HQ; cbn [wp]; try tauto.
    - apply HQ.
    - intros (H1 & H2 & H3). split; [exact H1|]. split; [eapply IH; eassumption|]. intros. eapply IH; [exact HQ|]. now apply H3.
    - intros (H1 & H2). split; [exact H1|]. destruct past; [exact H2|]. eapply IH; eassumption.
    - intros (H1 & H2). split; [exact H1|]. destruct past; [exact H2|]. eapply IH; eassumption.
    - intros H i. eapply IH; eauto.
    - intros H i'. eapply IH; eauto.
    - intros H i. eapply IH; eauto.
    - intros H i. eapply IH; eauto.
  Qed.

  Lemma wp_bind {A B'} (g : act A) (h : A -> act B') : forall past u m Q,
    wp past u m g (fun p u m a => wp p u m (h a) Q) -> wp past u m (abind g h) Q.
  Proof.
    induction g as [a| | | |k IH|k IH|k IH|s k IH|i k IH|l k IH|k IH]; intros past u m Q; cbn [wp abind]; try tauto.
    - intros (H1 & H2 & H3). split; [exact H1|]. split; [now apply IH|]. intros. apply IH. now apply H3.
    - intros (H1 & H2). split; [exact H1|]. destruct past; [exact H2|]. now apply IH.
    - intros (H1 & H2). split; [exact H1|]. destruct past; [exact H2|]. now apply IH.
    - intros H i. apply IH, H.
    - intros H i'. apply IH, H.
    - intros H i. apply IH, H.
    - intros H i. apply IH, H.
  Qed.

  (** Loops: each round but the last one reads something. *)
  Lemma wp_loop {S' R} (Inv : S' -> Prop) (Rs : R -> Prop) (d : nat) (body : S' -> act (S' + R)) (m0 : nat) :
    (m0 <= M)%nat ->
    (forall s past u m, Inv s -> (u <= 2)%nat -> (m <= m0)%nat ->
       wp past u m (body s) (fun p u' m' x => (u' <= 2)%nat /\
         match x with inl s' => (m' < m)%nat /\ Inv s' | inr r => (m' + d <= m)%nat /\ Rs r end)) ->
    forall n s past u m (Q : list tok -> nat -> nat -> R -> Prop), Inv s -> (u <= 2)%nat -> (m <= m0)%nat -> (m < n)%nat ->
      (forall p u' m' r, (u' <= 2)%nat -> (m' + d <= m)%nat -> Rs r -> Q p u' m' r) ->
      wp past u m (aloop n body s) Q.
  Proof.
    intros Hm Hb n. induction n as [|n IH]; intros s past u m Q Hi Hu Hm0 Hn HQ; [lia|]. cbn [aloop]. apply wp_bind.
    eapply wp_mono; [|now apply Hb]. intros p u' m' [s'|r] (H1 & H2 & H3).
    - apply IH; [exact H3|exact H1|lia|lia|]. intros. apply HQ; [assumption|lia|assumption].
    - cbn [wp]. now apply HQ.
  Qed.
End Wp.
