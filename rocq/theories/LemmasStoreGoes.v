(** Calls of the store come to an end. *)

From Verif Require Import ModelStoreRace SpecStoreRace LemmasBase LemmasStoreRace LemmasStoreLinear.

Section Goes.
  Context {X : FloatLib} {L : CaseLib} {G : GobLib}.

  (** What is done next is less. *)
  Inductive next : scode -> scode -> Prop :=
  | nx_panic c : (forall out, c <> SRet out) -> next (SRet OPanic) c
  | nx_get k tx : next (k tx) (SGet k)
  | nx_put tx k : next k (SPut tx k)
  | nx_nil k : next k (SNil k)
  | nx_store k h : next (k h) (SStoreTree k)
  | nx_set k : next k (SSetStoreTree k)
  | nx_clone h k : next k (SClone h k)
  | nx_read k t : next (k t) (SRead k)
  | nx_write t k : next k (SWrite t k)
  | nx_decode wt k ty : next (k ty) (SDecode wt k)
  | nx_encode ty k wt : next (k wt) (SEncode ty k)
  | nx_unlock k : next k (SUnlock k).
  Lemma next_ret c out : next c (SRet out) -> False.
  Proof. intros H. inversion H; subst. now apply (H0 out). Qed.
  Lemma next_wf : well_founded next.
  Proof.
    assert (R : forall out, Acc next (SRet out)) by (intros out; constructor; intros c H; now apply next_ret in H).
    intros c. induction c; constructor; intros c' N; inversion N; subst; auto.
  Qed.
  Lemma next_sact sh tx c sh' tx' c' : (forall out, c <> SRet out) -> sact sh tx c = (sh', tx', c') -> next c' c.
  Proof.
    intros N H. destruct c; cbn [sact] in H; [now contradiction (N out)|..];
      repeat match type of H with context [match ?e with _ => _ end] => destruct e eqn:? end; injection H as <- <- <-; constructor; exact N.
  Qed.

  Lemma find_set l x th y th' : find_th (set_th l x th) y = Some th' -> (x = y /\ th' = th) \/ (x <> y /\ find_th l y = Some th').
  Proof.
    intros H. destruct (Nat.eq_dec x y) as [->|N]; [left|right; now rewrite th_set_other in H by assumption].
    destruct (find_th l y) as [t0|] eqn:E.
    - rewrite (th_set_same _ _ _ _ E) in H. injection H as <-. now split.
    - exfalso. induction l as [|[z u] l IH]; [discriminate|]. cbn [set_th find_th] in *. destruct (z =? y)%nat eqn:EZ; cbn [find_th] in H; rewrite EZ in H; [discriminate|]. now apply IH.
  Qed.

  Inductive later_in : sthread -> sthread -> Prop :=
  | li_begin : later_in (ThBegin true) (ThBegin false)
  | li_access tx c code : later_in (ThCall tx c code true) (ThCall tx c code false)
  | li_act tx c code b tx' code' : next code' code -> later_in (ThCall tx' c code' false) (ThCall tx c code b).
  Lemma goes_later th th' : goes_on th th' -> later_in th' th.
  Proof.
    intros (I1 & I2 & N & st & st' & x & S & F & F').
    destruct S as [sh ths log y E|sh ths log y E EL|sh ths log y E|sh ths log y E|sh ths log y tx c E|sh ths log y tx c code E ET|sh ths log y tx c code sh' tx' code' E ER EA|sh ths log y tx c out b E|sh ths log s q]; cbn [ss_threads] in F, F'.
    - destruct (Nat.eq_dec y x) as [->|NE]; [congruence|]. rewrite th_app_other in F' by assumption. congruence.
    - apply find_set in F' as [[-> ->]|[NE F']]; [|congruence]. rewrite E in F. injection F as <-. destruct I1.
    - apply find_set in F' as [[-> ->]|[NE F']]; [|congruence]. rewrite E in F. injection F as <-. constructor.
    - apply find_set in F' as [[-> ->]|[NE F']]; [|congruence]. destruct I2.
    - apply find_set in F' as [[-> ->]|[NE F']]; [|congruence]. rewrite E in F. injection F as <-. destruct I1.
    - apply find_set in F' as [[-> ->]|[NE F']]; [|congruence]. rewrite E in F. injection F as <-. constructor.
    - apply find_set in F' as [[-> ->]|[NE F']]; [|congruence]. rewrite E in F. injection F as <-. constructor. now apply next_sact in EA.
    - apply find_set in F' as [[-> ->]|[NE F']]; [|congruence]. destruct I2.
    - congruence.
  Qed.
  Lemma later_wf : well_founded later_in.
  Proof.
    assert (K : forall code tx c b, Acc later_in (ThCall tx c code b)).
    { intros code. induction (next_wf code) as [code _ IH].
      assert (K0 : forall tx c, Acc later_in (ThCall tx c code true)).
      { intros tx c. constructor. intros th H. inversion H; subst. now apply IH. }
      intros tx c [|]; [apply K0|]. constructor. intros th H. inversion H; subst; [apply K0|now apply IH]. }
    assert (B : Acc later_in (ThBegin true)) by (constructor; intros th H; inversion H).
    intros th. destruct th as [|[|]|tx|tx c code b]; auto; constructor; intros th H; inversion H; subst; auto.
  Qed.
  Lemma calls_end : well_founded (fun th' th => goes_on th th').
  Proof.
    intros th. induction (later_wf th) as [th _ IH]. constructor. intros th' H. apply IH. now apply goes_later.
  Qed.

  (** ** Nothing keeps a call from going on *)

  Lemma next_other c c' : next c' c -> c' <> c.
  Proof. intros H E. subst c'. induction (next_wf c) as [c _ IH]. exact (IH c H H). Qed.
  Lemma busy_time t st : sreach t st -> forall x tx c code, find_th (ss_threads st) x = Some (ThCall tx c code true) -> takesTime code = true.
  Proof.
    induction 1 as [|st st' H IH S]; [discriminate|]. intros x tx0 c0 code0 F'.
    destruct S as [sh ths log y E|sh ths log y E EL|sh ths log y E|sh ths log y E|sh ths log y tx c E|sh ths log y tx c code E ET|sh ths log y tx c code sh' tx' code' E ER EA|sh ths log y tx c out b E|sh ths log s q]; cbn [ss_threads] in *.
    - destruct (Nat.eq_dec y x) as [->|NE]; [rewrite th_app_same in F' by assumption; discriminate|]. rewrite th_app_other in F' by assumption. now apply IH in F'.
    - apply find_set in F' as [[-> ?]|[NE F']]; [discriminate|now apply IH in F'].
    - apply find_set in F' as [[-> ?]|[NE F']]; [discriminate|now apply IH in F'].
    - apply find_set in F' as [[-> ?]|[NE F']]; [discriminate|now apply IH in F'].
    - apply find_set in F' as [[-> ?]|[NE F']]; [discriminate|now apply IH in F'].
    - apply find_set in F' as [[-> Q]|[NE F']]; [|now apply IH in F']. injection Q as -> -> ->. exact ET.
    - apply find_set in F' as [[-> ?]|[NE F']]; [discriminate|now apply IH in F'].
    - apply find_set in F' as [[-> ?]|[NE F']]; [discriminate|now apply IH in F'].
    - now apply IH in F'.
  Qed.
  Lemma call_goes t (st : sstate) x th : sreach t st -> find_th (ss_threads st) x = Some th -> in_call th ->
    exists st' th', sstep st st' /\ find_th (ss_threads st') x = Some th' /\ th' <> th /\ (forall y, y <> x -> find_th (ss_threads st') y = find_th (ss_threads st) y).
  Proof.
    intros R F I. pose proof (busy_time t st R x) as BT. clear R. destruct st as [sh ths log]. cbn [ss_threads] in *.
    assert (O : forall th' y, y <> x -> find_th (set_th ths x th') y = find_th ths y) by (intros; apply th_set_other; congruence).
    assert (S : forall th', find_th (set_th ths x th') x = Some th') by (intros; now apply (th_set_same _ _ _ _ F)).
    destruct th as [|b|tx|tx c code b]; try contradiction.
    - destruct b; eexists; eexists; (split; [(eapply ss_begun; exact F) || (eapply ss_reads; exact F)|]); cbn [ss_threads]; (split; [apply S|]); (split; [discriminate|apply O]).
    - assert (D : (exists out, code = SRet out) \/ forall out, code <> SRet out) by (destruct code; (left; eexists; reflexivity) || (right; discriminate)).
      destruct D as [[out ->]|NR]; [eexists; eexists; (split; [eapply ss_end; exact F|]); cbn [ss_threads]; (split; [apply S|]); (split; [discriminate|apply O])|].
      assert (D : b = takesTime code \/ (b = false /\ takesTime code = true)).
      { destruct b; [left; symmetry; exact (BT _ _ _ F)|]. destruct (takesTime code); auto. }
      destruct D as [->|[-> ET]].
      + destruct (sact sh tx code) as [[sh' tx'] code'] eqn:EA. eexists. eexists. split; [eapply ss_act; eassumption|]. cbn [ss_threads]. split; [apply S|].
        split; [|apply O]. intros Q. injection Q as _ Q _. apply next_sact in EA; [|exact NR]. now apply next_other in EA.
      + eexists. eexists. split; [eapply ss_access; eassumption|]. cbn [ss_threads]. split; [apply S|]. split; [discriminate|apply O].
  Qed.
  Lemma wait_goes t (st : sstate) x : sreach t st -> find_th (ss_threads st) x = Some ThWait ->
    (exists st', sstep st st' /\ find_th (ss_threads st') x = Some (ThBegin false)) \/
    exists y th, find_th (ss_threads st) y = Some th /\ open_ th.
  Proof.
    intros R F. destruct (sh_locked (ss_sh st)) eqn:EL; [right; now apply (locked_open t)|left]. destruct st as [sh ths log]. cbn [ss_sh ss_threads] in *.
    eexists. split; [eapply ss_lock; eassumption|]. cbn [ss_threads]. now apply (th_set_same _ _ _ _ F).
  Qed.
End Goes.
