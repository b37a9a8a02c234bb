(** The driver of the tests of a storage engine. *)

From Coq Require Import Lia.
From Verif Require Import SpecDriver LemmasBase LemmasStore LemmasWorld LemmasTable.

Lemma told_panic o panicked : wrongPanic o panicked = false <-> told o false panicked.
Proof. destruct o, panicked; simpl; intuition congruence. Qed.
Lemma told_both o fails panicked : wrongBoth o fails panicked = false <-> told o fails panicked.
Proof. destruct o, panicked, fails; simpl; intuition congruence. Qed.
Lemma told_fail o fails : o <> OPanic -> (wrongFail o fails = false <-> told o fails false).
Proof. destruct o, fails; simpl; intuition congruence. Qed.
Lemma told_errs o : o <> OPanic -> (errs o = false <-> told o false false).
Proof. destruct o; simpl; intuition congruence. Qed.

(** Row sets are left alone. *)
Definition quiet {A} (m : M A) : Prop := forall s, tx_rows (snd (snd (m s))) = tx_rows (snd s).
Lemma quiet_bind {A B} (m : M A) (f : A -> M B) : quiet m -> (forall a, quiet (f a)) -> quiet (bind m f).
Proof.
  intros Hm Hf s. unfold bind. specialize (Hm s). destruct (m s) as [[a|e|] s']; simpl in *; [rewrite Hf|..]; exact Hm.
Qed.
Lemma quiet_lift {A} (o : option A) : quiet (lift o).
Proof. destruct o; intros s; reflexivity. Qed.
Lemma quiet_read : quiet readTree.
Proof.
  intros s. unfold readTree, bind, getSh, getTx. simpl. destruct (tx_tree (snd s)); [apply quiet_lift|reflexivity].
Qed.
Lemma quiet_write t : quiet (writeTree t).
Proof. intros s. unfold writeTree, bind, getSh, getTx. simpl. destruct (tx_tree (snd s)); reflexivity. Qed.
Lemma quiet_forWrite : quiet forWrite.
Proof.
  intros s. unfold forWrite, bind, getSh, getTx. simpl. destruct (negb (tx_live (snd s))); [reflexivity|].
  destruct (match tx_tree (snd s) with Some h => (h =? sh_tree (fst s))%nat | None => false end); [|reflexivity].
  destruct (nth_error (sh_heap (fst s)) (sh_tree (fst s))); reflexivity.
Qed.

Section Driver.
  Context {X : FloatLib} {L : CaseLib} {G : GobLib} {S : SortLib}.

  Lemma quiet_insertRows t rs : quiet (insertRows t rs).
  Proof.
    induction rs as [|r rs IH]; [intros s; reflexivity|].
    simpl. apply quiet_bind; [intros s; reflexivity|]. intros r'. apply quiet_bind; [apply quiet_lift|]. intros it.
    apply quiet_bind; [apply quiet_read|]. intros t'. destruct (t_has t' it); [intros s; reflexivity|].
    apply quiet_bind; [apply quiet_write|]. intros _. exact IH.
  Qed.
  Lemma quiet_Delete t k : quiet (Delete t k).
  Proof.
    unfold Delete. apply quiet_bind; [apply quiet_forWrite|]. intros _. apply quiet_bind; [apply quiet_read|]. intros t'.
    destruct (t_delete t' _) as [t1 ok]. apply quiet_bind; [apply quiet_write|]. intros _. destruct ok; intros s; reflexivity.
  Qed.
  Lemma quiet_Update t k cols vals : quiet (Update t k cols vals).
  Proof.
    unfold Update. destruct (negb _); [intros s; reflexivity|]. apply quiet_bind; [apply quiet_read|]. intros t'.
    destruct (t_get t' _) as [it|]; [|intros s; reflexivity]. apply quiet_bind; [apply quiet_lift|]. intros r.
    apply quiet_bind; [apply quiet_forWrite|]. intros _. destruct (ColumnKeyUpdated _ _).
    - apply quiet_bind; [apply quiet_Delete|]. intros _. unfold Insert. apply quiet_bind; [apply quiet_forWrite|]. intros _. apply quiet_insertRows.
    - apply quiet_bind; [apply quiet_lift|]. intros it'. apply quiet_bind; [apply quiet_read|]. intros t1. apply quiet_write.
  Qed.

  Lemma quiet_run {A} (f : A -> outcome) (m : M A) x o x' : quiet m -> runM f m x = (o, x') -> tx_rows (snd x') = tx_rows (snd x).
  Proof. intros H E. unfold runM in E. specialize (H x). destruct (m x) as [r y]. inversion E. subst. exact H. Qed.
  Lemma delete_quiet x n o x' : does x (CDelete n) o x' -> tx_rows (snd x') = tx_rows (snd x).
  Proof.
    unfold does. simpl. intros E. destruct (nth_error (tx_refs (snd x)) n) as [rr|]; [|now inversion E].
    destruct (nth_error (tx_tables (snd x)) (rr_tbl rr)) as [t|]; [|now inversion E].
    eapply quiet_run; [apply quiet_Delete|exact E].
  Qed.
  Lemma update_quiet x n cols vals o x' : does x (CUpdate n cols vals) o x' -> tx_rows (snd x') = tx_rows (snd x).
  Proof.
    unfold does. simpl. intros E. destruct (nth_error (tx_refs (snd x)) n) as [rr|]; [|now inversion E].
    destruct (nth_error (tx_tables (snd x)) (rr_tbl rr)) as [t|]; [|now inversion E].
    eapply quiet_run; [apply quiet_Update|exact E].
  Qed.
  Lemma current_quiet x n o x' : does x (CCurrent n) o x' -> tx_rows (snd x') = tx_rows (snd x).
  Proof.
    unfold does. simpl. intros E. destruct (nth_error (tx_rows (snd x)) n) as [rs|]; [|now inversion E].
    eapply quiet_run; [|exact E]. unfold Current. destruct (rs_next rs <=? 0); [intros s; reflexivity|].
    apply quiet_bind; [apply quiet_lift|]. intros it s. reflexivity.
  Qed.
  Lemma next_moves x n r x' : does x (CNext n) (ORow r) x' ->
    exists rs, nth_error (tx_rows (snd x)) n = Some rs /\ 0 <= rs_next rs < zlen (rs_items rs) /\
      nth_error (tx_rows (snd x')) n = Some {| rs_tbl := rs_tbl rs; rs_cols := rs_cols rs; rs_items := rs_items rs; rs_next := rs_next rs + 1 |}.
  Proof.
    unfold does. simpl. intros E. destruct (nth_error (tx_rows (snd x)) n) as [rs|] eqn:En; [|inversion E].
    exists rs. split; [reflexivity|]. unfold runM, Next in E. destruct (rs_next rs <? 0) eqn:E0; [inversion E|].
    destruct (rs_next rs =? zlen (rs_items rs)) eqn:E1; [inversion E|]. unfold bind, lift in E.
    destruct (znth (rs_items rs) (rs_next rs)) as [it|] eqn:Ez; [|inversion E].
    apply Z.ltb_ge in E0. apply Z.eqb_neq in E1. unfold znth in Ez. destruct (rs_next rs <? 0) eqn:E2; [discriminate|].
    assert (Z.to_nat (rs_next rs) < length (rs_items rs))%nat by (apply nth_error_Some; congruence).
    split; [unfold zlen; lia|].
    assert (tx_rows (snd x') = ModelStore.set_nth n {| rs_tbl := rs_tbl rs; rs_cols := rs_cols rs; rs_items := rs_items rs; rs_next := rs_next rs + 1 |} (tx_rows (snd x))) as ->.
    { simpl in E. destruct (rs_cols rs) as [cols|]; [destruct (projectRow cols (it_row it))|]; inversion E; reflexivity. }
    apply set_nth_same. apply nth_error_Some. congruence.
  Qed.
  Lemma quiet_items t mn mx p : quiet (rowsItems t mn mx p).
  Proof.
    unfold rowsItems. cbv zeta. apply quiet_bind; [destruct mx; [|intros s; reflexivity]; apply quiet_bind; [apply quiet_lift|]; intros it s; reflexivity|].
    intros mi. apply quiet_bind.
    { destruct p; [|intros s; reflexivity]. apply quiet_bind; [apply quiet_lift|]. intros ct. apply quiet_bind; [apply quiet_lift|]. intros f s. reflexivity. }
    intros pf. apply quiet_bind; [apply quiet_lift|]. intros it. apply quiet_bind; [apply quiet_read|]. intros tr. apply quiet_lift.
  Qed.
  Lemma rows_new x tbl cols mn mx p x' : does x (CRows tbl cols mn mx p) ODone x' ->
    exists rs, nth_error (tx_rows (snd x')) (length (tx_rows (snd x))) = Some rs /\ rs_next rs = 0.
  Proof.
    unfold does. simpl. intros E. destruct (nth_error (tx_tables (snd x)) tbl) as [t|]; [|inversion E].
    unfold runM in E. rewrite Rows_eq in E. unfold bind in E. pose proof (quiet_items t mn mx p x) as Q.
    destruct (rowsItems t mn mx p x) as [[items|e|] y]; [|inversion E..]. simpl in Q, E. inversion E. subst x'. simpl.
    eexists. split; [rewrite nth_error_app2 by (rewrite Q; lia); rewrite Q, Nat.sub_diag; reflexivity|reflexivity].
  Qed.

  (** All rows. *)
  Lemma visits_short rs (each : nat -> row -> shared * txstate -> shared * txstate -> Prop) : (forall n r x x', each n r x x' -> tx_rows (snd x') = tx_rows (snd x)) ->
    forall x l x', visits rs each x l x' -> forall r, nth_error (tx_rows (snd x)) rs = Some r -> 0 <= rs_next r ->
    zlen l = 0 \/ rs_next r + zlen l <= zlen (rs_items r).
  Proof.
    intros He x l x' H. induction H as [x x' E|x x1 x2 x3 x' r l E1 E2 E3 H IH]; intros q Hq H0; [left; reflexivity|].
    right. apply next_moves in E1 as (q' & Hq' & Hn & Hs). rewrite Hq in Hq'. injection Hq' as <-.
    specialize (IH {| rs_tbl := rs_tbl q; rs_cols := rs_cols q; rs_items := rs_items q; rs_next := rs_next q + 1 |}).
    rewrite (He _ _ _ _ E3), (current_quiet _ _ _ _ E2) in IH. specialize (IH Hs). simpl in IH. unfold zlen in *. simpl length. lia.
  Qed.

  Lemma with_state_state s x : ts_state (ts_with_state s x) = x.
  Proof. reflexivity. Qed.
  Lemma fail_false s : ts_fail s false = s.
  Proof. destruct s. unfold ts_fail. simpl. now rewrite orb_false_r. Qed.
  Lemma with_state_twice s x y : ts_with_state (ts_with_state s x) y = ts_with_state s y.
  Proof. reflexivity. Qed.
  Lemma with_state_same s : ts_with_state s (ts_state s) = s.
  Proof. destruct s. reflexivity. Qed.

  Section Loop.
    Context {A : Type} (fn : A -> tstate -> nat -> row -> option (A * tstate)) (acc : A -> row -> A)
      (each : nat -> row -> shared * txstate -> shared * txstate -> Prop).
    Definition forward := forall a s n r a' s', fn a s n r = Some (a', s') -> ts_failed s' = false ->
      ts_failed s = false /\ each n r (ts_state s) (ts_state s') /\ s' = ts_with_state s (ts_state s') /\ a' = acc a r.
    Definition backward := forall a s n r x', ts_failed s = false -> each n r (ts_state s) x' -> fn a s n r = Some (acc a r, ts_with_state s x').

    Lemma loop_forward : forward -> forall rs n a s a' s', selectLoop n rs fn a s = Some (a', s') -> ts_failed s' = false ->
      ts_failed s = false /\ exists l, visits rs each (ts_state s) l (ts_state s') /\ s' = ts_with_state s (ts_state s') /\ a' = fold_left acc l a.
    Proof.
      intros F rs n. induction n as [|n IH]; intros a s a' s' E Hf; [discriminate|]. cbn [selectLoop] in E. unfold tcall in E.
      destruct (callStep (ts_state s) (CNext rs)) as [o x1] eqn:E1. destruct o; try discriminate.
      - cbn [ts_state ts_with_state] in E. destruct (callStep x1 (CCurrent rs)) as [o x2] eqn:E2. destruct o; try discriminate.
        + destruct (fn a _ _ r) as [[b t]|] eqn:E3; [|discriminate].
          apply IH in E as (Ft & l & V & Es & Ea); [|exact Hf].
          destruct (F _ _ _ _ _ _ E3 Ft) as (Fs & Ech & Et & Eb). split; [exact Fs|].
          exists (r :: l). simpl in *. split; [|split].
          * eapply vi_row; [exact E1|exact E2|exact Ech|exact V].
          * rewrite Es, Et. reflexivity.
          * rewrite Ea, Eb. reflexivity.
        + exfalso. inversion E. subst. simpl in Hf. now rewrite orb_true_r in Hf.
      - destruct e; try (exfalso; inversion E; subst; simpl in Hf; now rewrite orb_true_r in Hf).
        inversion E. subst. split; [exact Hf|]. exists []. split; [apply vi_end; exact E1|]. split; reflexivity.
    Qed.

    Lemma loop_backward : backward -> forall rs x l x', visits rs each x l x' -> forall n a s, ts_state s = x -> ts_failed s = false ->
      (length l < n)%nat -> selectLoop n rs fn a s = Some (fold_left acc l a, ts_with_state s x').
    Proof.
      intros F rs x l x' V. induction V as [x x' E|x x1 x2 x3 x' r l E1 E2 E3 V IH]; intros n a s Hs Hf Hn;
        (destruct n as [|n]; [simpl in Hn; lia|]); cbn [selectLoop]; unfold tcall; subst x.
      - unfold does in E. now rewrite E.
      - unfold does in E1, E2. rewrite E1. cbn [ts_state ts_with_state]. rewrite E2.
        rewrite (F _ _ _ _ x3); [|exact Hf|exact E3]. rewrite IH; [reflexivity|reflexivity|exact Hf|simpl in Hn; lia].
    Qed.

    Lemma select_forward cols mn mx p : forward -> forall a s a' s', selectFunc cols mn mx p fn a s = Some (a', s') -> ts_failed s' = false ->
      ts_failed s = false /\ exists tbl l, ts_tbl s = Some tbl /\ rows_read tbl cols mn mx p each (ts_state s) l (ts_state s') /\
        s' = ts_with_state s (ts_state s') /\ a' = fold_left acc l a.
    Proof.
      intros F a s a' s' E Hf. unfold selectFunc in E. destruct (ts_tbl s) as [tbl|]; [|discriminate].
      unfold tcall in E. destruct (callStep (ts_state s) _) as [o x1] eqn:E1. destruct o; try discriminate.
      - destruct (selectLoop _ _ _ _ _) as [[b t]|] eqn:E2; [|discriminate].
        destruct (callStep (ts_state t) _) as [o x2] eqn:E3.
        assert (o <> OPanic) as No by (intros ->; discriminate).
        assert (Some (b, ts_fail (ts_with_state t x2) (errs o)) = Some (a', s')) as E' by (destruct o; congruence).
        clear E. inversion E'. subst a' s'. simpl in Hf. apply orb_false_iff in Hf as (Hf & Ho).
        rewrite Ho, fail_false. apply loop_forward in E2 as (Fs & l & V & Et & Ea); [|exact F|exact Hf].
        split; [exact Fs|]. exists tbl, l. split; [reflexivity|]. split; [|split].
        + exists x1, (ts_state t), o. split; [exact E1|]. split; [exact V|]. split; [exact E3|]. now apply told_errs.
        + rewrite Et. reflexivity.
        + exact Ea.
      - exfalso. inversion E. subst. simpl in Hf. now rewrite orb_true_r in Hf.
    Qed.

    Lemma select_backward cols mn mx p : backward -> (forall n r x x', each n r x x' -> tx_rows (snd x') = tx_rows (snd x)) ->
      forall a s tbl l x', ts_failed s = false -> ts_tbl s = Some tbl -> rows_read tbl cols mn mx p each (ts_state s) l x' ->
      selectFunc cols mn mx p fn a s = Some (fold_left acc l a, ts_with_state s x').
    Proof.
      intros F Q a s tbl l x' Hf Ht (x1 & x2 & o & E1 & V & E2 & T). unfold selectFunc. rewrite Ht. unfold tcall.
      pose proof E1 as Hn. unfold does in E1. rewrite E1. apply rows_new in Hn as (r & Hr & H0).
      cbv zeta. simpl ts_state. rewrite Hr.
      rewrite (loop_backward F _ _ _ _ V _ a (ts_with_state s x1)); [|reflexivity|exact Hf|].
      - cbn [ts_state ts_with_state]. unfold does in E2. rewrite E2. destruct o; cbn [told errs] in T |- *; try (destruct T; discriminate); try discriminate; rewrite fail_false; reflexivity.
      - destruct (visits_short _ _ Q _ _ _ V _ Hr) as [H|H]; [lia|..]; unfold zlen in H; lia.
    Qed.
  End Loop.

  Lemma loop_ext {A} (f g : A -> tstate -> nat -> row -> option (A * tstate)) : (forall a s n r, f a s n r = g a s n r) ->
    forall n rs a s, selectLoop n rs f a s = selectLoop n rs g a s.
  Proof.
    intros H n rs. induction n as [|n IH]; intros a s; [reflexivity|]. cbn [selectLoop].
    destruct (tcall s (CNext rs)) as [o s1]. destruct o; try reflexivity.
    destruct (tcall s1 (CCurrent rs)) as [o s2]. destruct o; try reflexivity.
    rewrite H. destruct (g a s2 _ r) as [[b t]|]; [apply IH|reflexivity].
  Qed.
  Lemma select_ext {A} (f g : A -> tstate -> nat -> row -> option (A * tstate)) : (forall a s n r, f a s n r = g a s n r) ->
    forall cols mn mx p a s, selectFunc cols mn mx p f a s = selectFunc cols mn mx p g a s.
  Proof.
    intros H cols mn mx p a s. unfold selectFunc. destruct (ts_tbl s); [|reflexivity]. destruct (tcall s _) as [o s1].
    destruct o; try reflexivity. rewrite (loop_ext f g H). reflexivity.
  Qed.

  Definition hand_of (s : tstate) : hand := Build_hand (ts_tx s) (ts_tbl s) (ts_rows s) (ts_ref s).
  Definition tstate_of (x : shared * txstate) (h : hand) : tstate :=
    {| ts_state := x; ts_tx := h_tx h; ts_tbl := h_tbl h; ts_rows := h_rows h; ts_ref := h_ref h; ts_failed := false |}.

  Lemma named tid s : exists tn x, testTableName tid s = (tn, ts_with_state s x) /\ table_named tid (ts_state s) tn x /\
    tx_tables (snd x) = tx_tables (snd (ts_state s)).
  Proof.
    unfold testTableName. destruct (ID (sh_idt (fst (ts_state s))) (str "db") false) as [t1 d] eqn:E1.
    destruct (ID t1 (str "scm") false) as [t2 c] eqn:E2. destruct (ID t2 (str "tbl" ++ format_int tid) false) as [t3 n] eqn:E3.
    eexists _, _. split; [reflexivity|]. split; [|reflexivity]. exists t1, t2, t3. simpl. auto.
  Qed.
  Lemma named_same tid x tn1 x1 tn2 x2 : table_named tid x tn1 x1 -> table_named tid x tn2 x2 -> tn1 = tn2 /\ x1 = x2.
  Proof.
    intros (a & b & c & A1 & A2 & A3 & A4) (a' & b' & c' & B1 & B2 & B3 & B4).
    destruct tn1 as [d1 s1 t1], tn2 as [d2 s2 t2]. cbn [tn_database tn_schema tn_table] in *.
    assert (a = a' /\ d1 = d2) as (-> & ->) by (split; congruence).
    assert (b = b' /\ s1 = s2) as (-> & ->) by (split; congruence).
    assert (c = c' /\ t1 = t2) as (-> & ->) by (split; congruence).
    split; [reflexivity|congruence].
  Qed.

  Lemma fold_rows l : forall l0 : list row, fold_left (fun l r => l ++ [r]) l l0 = l0 ++ l.
  Proof. induction l as [|r l IH]; intros l0; simpl; [now rewrite app_nil_r|]. rewrite IH, <- app_assoc. reflexivity. Qed.
  Lemma fold_unit {B} (l : list B) (u : unit) : fold_left (fun u _ => u) l u = u.
  Proof. induction l; [reflexivity|assumption]. Qed.

  Lemma each_select : forward (fun l s _ r => Some (l ++ [r], s)) (fun l r => l ++ [r]) (fun _ _ y y' => y' = y) /\
    backward (fun l s _ r => Some (l ++ [r], s)) (fun l r => l ++ [r]) (fun _ _ y y' => y' = y).
  Proof.
    split; intros a s n r.
    - intros a' s' E Hf. inversion E. subst. split; [exact Hf|]. split; [reflexivity|]. split; [symmetry; apply with_state_same|reflexivity].
    - intros x' _ ->. now rewrite with_state_same.
  Qed.
  Definition one (call : nat -> row -> txcall) (_ : unit) (s : tstate) (n : nat) (r : row) : option (unit * tstate) :=
    match tcall s (call n r) with (OPanic, _) => None | (o, s) => Some (tt, ts_fail s (errs o)) end.
  Lemma each_one call : forward (one call) (fun u _ => u) (fun n r y y' => exists o, does y (call n r) o y' /\ told o false false) /\
    backward (one call) (fun u _ => u) (fun n r y y' => exists o, does y (call n r) o y' /\ told o false false).
  Proof.
    split; intros [] s n r.
    - intros a' s' E Hf. unfold one, tcall in E. destruct (callStep (ts_state s) (call n r)) as [o x'] eqn:E1.
      assert (o <> OPanic) as No by (intros ->; discriminate).
      assert (Some (tt, ts_fail (ts_with_state s x') (errs o)) = Some (a', s')) as E' by (destruct o; congruence).
      inversion E'. subst. simpl in Hf. apply orb_false_iff in Hf as (Hf & Ho). split; [exact Hf|]. rewrite Ho, fail_false.
      split; [|split; reflexivity]. exists o. split; [exact E1|]. now apply told_errs.
    - intros x' Hf (o & E & T). unfold one, tcall. unfold does in E. rewrite E.
      destruct o; cbn [told errs] in T |- *; try (destruct T; discriminate); try discriminate; rewrite fail_false; reflexivity.
  Qed.

  Lemma report_forward wrong s s' : reportTable wrong s = Some s' -> ts_failed s' = false -> wrong = false /\ s' = s.
  Proof.
    unfold reportTable. destruct wrong; [|rewrite fail_false; intros [= ->]; auto].
    destruct (ts_tbl s); [|discriminate]. intros [= <-]. simpl. now rewrite orb_true_r.
  Qed.
  Lemma report_backward s : reportTable false s = Some s.
  Proof. unfold reportTable. now rewrite fail_false. Qed.
  Lemma fail_forward wrong s s' : Some (ts_fail s wrong) = Some s' -> ts_failed s' = false -> wrong = false /\ s' = s.
  Proof. intros [= <-]. simpl. destruct wrong; [now rewrite orb_true_r|]. now rewrite fail_false. Qed.

  Lemma rowid_only id : idString idt_init id = str "__rowid" <-> id = ROWID.
  Proof.
    split; [|intros ->; vm_compute; reflexivity]. unfold idString. destruct (lookup_Z (idt_names idt_init) id) as [s|] eqn:El; [|discriminate]. intros ->.
    assert (Q : forallb (fun p => negb (bytes_eqb (snd p) (str "__rowid")) || (fst p =? ROWID)) (idt_names idt_init) = true) by (vm_compute; reflexivity).
    revert El Q. generalize (idt_names idt_init). induction l as [|[k t] l IH]; cbn [lookup_Z forallb fst snd]; [discriminate|]. rewrite andb_true_iff. intros El [Q1 Q2].
    destruct (Z.eqb_spec k id) as [->|Ne].
    - injection El as ->. rewrite bytes_eqb_refl in Q1. cbn in Q1. now apply Z.eqb_eq in Q1.
    - now apply IH.
  Qed.
  Lemma set_up_columns cols types key q : SetupColumns cols types key = q <-> set_up cols types key q.
  Proof.
    split.
    - intros <-. destruct key as [key|]; [constructor|]. apply (su_rowid cols types ROWID). now apply rowid_only.
    - intros H. destruct H as [key|rowid H]; [reflexivity|]. apply rowid_only in H as ->. reflexivity.
  Qed.

  (** A case that passes is met. *)
  Lemma case_forward s c s' : asks c -> testCase s c = Some s' -> ts_failed s' = false ->
    ts_failed s = false /\ meets (ts_state s) (hand_of s) c (ts_state s') (hand_of s').
  Proof.
    intros A E Hf. unfold hand_of. destruct c; cbn [testCase] in E.
    - destruct (ts_tx s) eqn:Etx; [|discriminate]. cbn [negb] in E.
      destruct (SetupColumns cols types primary) as [[cols' types'] primary'] eqn:Es.
      destruct (named tid s) as (tn & x & En & Nm & Et). rewrite En in E. unfold tcall in E. cbn [ts_state ts_with_state] in E.
      destruct (callStep x _) as [o x2] eqn:E1. apply fail_forward in E as (W & ->); [|exact Hf]. apply told_panic in W.
      cbn in Hf |- *. split; [exact Hf|]. rewrite ?Etx, ?Et. eapply me_open; [exact Nm|apply set_up_columns; exact Es|exact E1|exact W].
    - destruct (ts_tx s) eqn:Etx; [|discriminate]. cbn [negb] in E.
      destruct (named tid s) as (tn & x & En & Nm & Et). rewrite En in E.
      destruct (SetupColumns cols types primary) as [[cols' types'] primary'] eqn:Es. unfold tcall in E. cbn [ts_state ts_with_state] in E.
      destruct (callStep x _) as [o x2] eqn:E1. apply fail_forward in E as (W & ->); [|exact Hf]. apply told_panic in W.
      cbn in Hf |- *. split; [exact Hf|]. rewrite ?Etx. eapply me_create; [exact Nm|apply set_up_columns; exact Es|exact E1|exact W].
    - destruct (ts_tx s) eqn:Etx; [|discriminate]. cbn [negb] in E. unfold tcall in E.
      destruct (callStep (ts_state s) _) as [o x2] eqn:E1. apply fail_forward in E as (W & ->); [|exact Hf]. apply told_panic in W.
      cbn in Hf |- *. split; [exact Hf|]. rewrite ?Etx. eapply me_drop; [exact E1|exact W].
    - destruct (ts_tbl s) as [tbl|] eqn:Etb; [|discriminate]. unfold tcall in E.
      destruct (callStep (ts_state s) _) as [o x1] eqn:E1. destruct o; try discriminate.
      destruct (named tid (ts_with_state s x1)) as (tn & x & En & Nm & Et). rewrite En in E. cbn [ts_state ts_tx ts_with_state] in E, Nm.
      destruct (ts_tx s) eqn:Etx; [|discriminate]. cbn [negb] in E.
      destruct (SetupColumns cols types key) as [[cols' types'] key'] eqn:Es.
      apply fail_forward in E as (W & ->); [|exact Hf]. repeat rewrite orb_false_iff in W. repeat rewrite negb_false_iff in W.
      destruct W as (((((W1 & W2) & W3) & W4) & W5) & W6). apply Z.eqb_eq in W1. apply tablename_eqb_eq in W2. apply Z.eqb_eq in W3.
      apply (list_eqb_eq _ Z.eqb_eq) in W4. apply (list_eqb_eq _ coltype_eqb_eq) in W5. apply (list_eqb_eq _ Z.eqb_eq) in W6.
      cbn in Hf |- *. split; [exact Hf|]. rewrite ?Etx, ?Etb, <- W3.
      eapply me_type; [exact E1|exact Nm|apply set_up_columns; exact Es|exact W1|exact W2|exact W4|exact W5|exact W6].
    - destruct (ts_tx s) eqn:Etx; [|discriminate]. cbn [negb] in E. unfold tcall in E.
      destruct (callStep (ts_state s) _) as [o x2] eqn:E1. apply fail_forward in E as (W & ->); [|exact Hf]. apply told_panic in W.
      cbn in Hf |- *. split; [exact Hf|]. rewrite ?Etx. eapply me_commit; [exact E1|exact W].
    - destruct (ts_tx s) eqn:Etx; [|discriminate]. cbn [negb] in E. unfold tcall in E.
      destruct (callStep (ts_state s) _) as [o x2] eqn:E1. apply fail_forward in E as (W & ->); [|exact Hf]. apply told_panic in W.
      cbn in Hf |- *. split; [exact Hf|]. rewrite ?Etx.
      replace (match o with ODone => false | OErr _ => negb panicked | _ => true end) with (in_use o).
      + eapply me_rollback; [exact E1|exact W].
      + destruct o; try reflexivity. simpl in W. destruct W. discriminate.
    - destruct (ts_tx s) eqn:Etx; [|discriminate]. cbn [negb] in E. unfold tcall in E.
      destruct (callStep (ts_state s) _) as [o x2] eqn:E1. injection E as <-. cbn in Hf |- *. split; [exact Hf|]. rewrite ?Etx. eapply me_stmt. exact E1.
    - destruct (ts_tbl s) as [tbl|] eqn:Etb; [|discriminate]. unfold tcall in E.
      destruct (callStep (ts_state s) _) as [o x2] eqn:E1. assert (o <> OPanic) as No by (intros ->; discriminate).
      assert (Some (ts_fail (ts_with_rows (ts_with_state s x2) (got o (length (tx_rows (snd (ts_state s)))))) (wrongFail o fails)) = Some s') as E' by (destruct o; (exact E || (exfalso; now apply No))).
      apply fail_forward in E' as (W & ->); [|exact Hf]. apply told_fail in W; [|exact No].
      cbn in Hf |- *. split; [exact Hf|]. rewrite ?Etb. eapply me_rows; [exact E1|exact W].
    - destruct (ts_ref s) as [ref|] eqn:Er; [|discriminate]. unfold tcall in E.
      destruct (callStep (ts_state s) _) as [o x2] eqn:E1. apply report_forward in E as (W & ->); [|exact Hf]. apply told_both in W.
      cbn in Hf |- *. split; [exact Hf|]. rewrite ?Er. eapply me_update; [exact E1|exact W].
    - destruct (ts_ref s) as [ref|] eqn:Er; [|discriminate]. unfold tcall in E.
      destruct (callStep (ts_state s) _) as [o x2] eqn:E1. apply report_forward in E as (W & ->); [|exact Hf]. apply told_both in W.
      cbn in Hf |- *. split; [exact Hf|]. rewrite ?Er. eapply me_delete; [exact E1|exact W].
    - destruct (ts_tbl s) as [tbl|] eqn:Etb; [|discriminate]. unfold tcall in E.
      destruct (callStep (ts_state s) _) as [o x2] eqn:E1. assert (o <> OPanic) as No by (intros ->; discriminate).
      assert (Some (ts_fail (ts_with_state s x2) (wrongFail o fails)) = Some s') as E' by (destruct o; (exact E || (exfalso; now apply No))).
      apply fail_forward in E' as (W & ->); [|exact Hf]. apply told_fail in W; [|exact No].
      cbn in Hf |- *. split; [exact Hf|]. rewrite ?Etb. eapply me_insert; [exact E1|exact W].
    - destruct (ts_rows s) as [rs|] eqn:Er; [|discriminate]. unfold tcall in E.
      destruct (callStep (ts_state s) _) as [o x2] eqn:E1.
      assert (told_next o r fails eof panicked /\ s' = ts_with_state s x2) as (T & ->).
      { assert (o = OPanic \/ o <> OPanic) as [-> |No] by (destruct o; (left; reflexivity) || (right; discriminate)).
        { apply report_forward in E as (W & ->); [|exact Hf]. split; [|reflexivity]. simpl. now destruct panicked. }
        assert ((if panicked then reportTable true (ts_with_state s x2)
                else if fails then reportTable (negb (errs o)) (ts_with_state s x2)
                else if eof then reportTable (match o with OErr EOF => false | _ => true end) (ts_with_state s x2)
                else match CompareRows (match o with ORow r => r | _ => [] end) r with
                     | None => None | Some Eq => Some (ts_with_state s x2) | Some _ => reportTable true (ts_with_state s x2) end) = Some s') as E'
          by (destruct o; congruence). clear E.
        destruct panicked; [apply report_forward in E' as (W & _); [discriminate|exact Hf]|].
        destruct fails.
        { apply report_forward in E' as (W & ->); [|exact Hf]. split; [|reflexivity]. destruct o; simpl in W |- *; try discriminate. auto. }
        destruct eof.
        { apply report_forward in E' as (W & ->); [|exact Hf]. split; [|reflexivity]. destruct o; try discriminate. destruct e; try discriminate. simpl. auto. }
        destruct (CompareRows _ r) as [[]|] eqn:Ec; try discriminate; try (apply report_forward in E' as (W & _); [discriminate|exact Hf]).
        injection E' as <-. split; [|reflexivity].
        destruct o; try (destruct r; [destruct A|discriminate]); try congruence. simpl. auto. }
      cbn in Hf |- *. split; [exact Hf|]. rewrite ?Er. eapply me_next; [exact E1|exact T].
    - destruct (ts_rows s) as [rs|] eqn:Er; [|discriminate]. unfold tcall in E.
      destruct (callStep (ts_state s) _) as [o x2] eqn:E1. apply report_forward in E as (W & ->); [|exact Hf]. apply told_both in W.
      cbn in Hf |- *. split; [exact Hf|]. rewrite ?Er. eapply me_current; [exact E1|exact W].
    - destruct (ts_rows s) as [rs|] eqn:Er; [|discriminate]. unfold tcall in E.
      destruct (callStep (ts_state s) _) as [o x2] eqn:E1. apply report_forward in E as (W & ->); [|exact Hf]. apply told_both in W.
      cbn in Hf |- *. split; [exact Hf|]. rewrite ?Er. eapply me_close; [exact E1|exact W].
    - destruct (selectFunc _ _ _ _ _ _ s) as [[l t]|] eqn:E1; [|discriminate].
      destruct (RowsEqual l rows unordered) as [b|] eqn:E2; [|discriminate].
      apply fail_forward in E as (W & ->); [|exact Hf]. destruct b; [|discriminate].
      apply (select_forward _ (fun l r => l ++ [r]) (fun _ _ y y' => y' = y)) in E1 as (Fs & tbl & l' & Et & H & Es & El); [|apply each_select|exact Hf].
      rewrite fold_rows in El. simpl in El. subst l'. split; [exact Fs|]. rewrite Es. cbn. rewrite Et. eapply me_select; [exact H|exact E2].
    - destruct (selectFunc _ _ _ _ _ _ s) as [[[] t]|] eqn:E1; [|discriminate]. simpl in E. injection E as ->.
      apply (select_forward _ (fun u _ => u) _ _ _ _ _ (proj1 (each_one (fun n _ => CDelete n)))) in E1 as (Fs & tbl & l' & Et & H & Es & El); [|exact Hf].
      split; [exact Fs|]. rewrite Es. cbn. rewrite Et. eapply me_delete_from. exact H.
    - destruct (selectFunc _ _ _ _ _ _ s) as [[[] t]|] eqn:E1; [|discriminate]. simpl in E. injection E as ->.
      rewrite (select_ext _ (one (fun n r => CUpdate n (fst (update r)) (snd (update r))))) in E1
        by (intros u t n r; unfold one; destruct (update r); reflexivity).
      apply (select_forward _ (fun u _ => u) _ _ _ _ _ (proj1 (each_one (fun n r => CUpdate n (fst (update r)) (snd (update r)))))) in E1
        as (Fs & tbl & l' & Et & H & Es & El); [|exact Hf].
      split; [exact Fs|]. rewrite Es. cbn. rewrite Et. eapply me_update_set. exact H.
  Qed.

  (** A case that is met passes. *)
  Lemma case_backward x h c x' h' : meets x h c x' h' -> testCase (tstate_of x h) c = Some (tstate_of x' h').
  Proof.
    intros H. destruct H; unfold tstate_of, does in *; cbn [testCase ts_tx ts_tbl ts_rows ts_ref ts_state h_tx h_tbl h_rows h_ref negb].
    - apply set_up_columns in H0. rewrite H0. destruct (named tid (tstate_of x (Build_hand true tbl rs ref))) as (tn' & x' & En & Nm & Et). unfold tstate_of in En. cbn in En.
      rewrite En. destruct (named_same _ _ _ _ _ _ H Nm) as (<- & <-). unfold tcall. cbn [ts_state ts_with_state]. rewrite H1.
      apply told_panic in H2. rewrite H2, fail_false. cbn [ts_with_tbl ts_with_state ts_tx ts_tbl ts_rows ts_ref ts_failed ts_state]. cbn in Et. rewrite Et. reflexivity.
    - destruct (named tid (tstate_of x (Build_hand true tbl rs ref))) as (tn' & x' & En & Nm & Et). unfold tstate_of in En. cbn in En.
      rewrite En. destruct (named_same _ _ _ _ _ _ H Nm) as (<- & <-). apply set_up_columns in H0. rewrite H0. unfold tcall. cbn [ts_state ts_with_state]. rewrite H1.
      apply told_panic in H2. rewrite H2, fail_false. reflexivity.
    - unfold tcall. cbn [ts_state]. rewrite H. apply told_panic in H0. rewrite H0, fail_false. reflexivity.
    - unfold tcall. cbn [ts_state]. rewrite H. unfold ts_with_state at 1. cbn [ts_tx ts_tbl ts_rows ts_ref ts_failed].
      destruct (named tid (tstate_of x1 (Build_hand true (Some tbl) rs ref))) as (tn' & x' & En & Nm & Et). unfold tstate_of in En. cbn in En.
      rewrite En. destruct (named_same _ _ _ _ _ _ H0 Nm) as (<- & <-). cbn [ts_with_state ts_tx negb]. apply set_up_columns in H1. rewrite H1.
      rewrite (proj2 (Z.eqb_eq _ _) H2), (proj2 (tablename_eqb_eq _ _) H3), Z.eqb_refl, (proj2 (list_eqb_eq _ Z.eqb_eq _ _) H4),
        (proj2 (list_eqb_eq _ coltype_eqb_eq _ _) H5), (proj2 (list_eqb_eq _ Z.eqb_eq _ _) H6). cbn [negb orb]. rewrite fail_false. reflexivity.
    - unfold tcall. cbn [ts_state]. rewrite H. apply told_panic in H0. rewrite H0, fail_false. destruct o; reflexivity.
    - unfold tcall. cbn [ts_state]. rewrite H. pose proof H0 as T. apply told_panic in H0. rewrite H0, fail_false.
      destruct o; try reflexivity. simpl in T. destruct T. discriminate.
    - unfold tcall. cbn [ts_state]. rewrite H. reflexivity.
    - unfold tcall. cbn [ts_state]. rewrite H. destruct o; simpl in H0; try discriminate; destruct H0 as (_ & ->); reflexivity.
    - unfold tcall. cbn [ts_state]. rewrite H. apply told_both in H0. rewrite H0. apply report_backward.
    - unfold tcall. cbn [ts_state]. rewrite H. apply told_both in H0. rewrite H0. apply report_backward.
    - unfold tcall. cbn [ts_state]. rewrite H. destruct o; simpl in H0; try discriminate; destruct H0 as (_ & ->); reflexivity.
    - unfold tcall. cbn [ts_state]. rewrite H. destruct o; simpl in H0; try contradiction.
      + destruct H0 as (-> & -> & -> & H0). rewrite H0. reflexivity.
      + destruct H0 as (-> & [-> |(-> & ->)]); [reflexivity|]. destruct fails; reflexivity.
      + subst. reflexivity.
    - unfold tcall. cbn [ts_state]. rewrite H. apply told_both in H0. rewrite H0. apply report_backward.
    - unfold tcall. cbn [ts_state]. rewrite H. apply told_both in H0. rewrite H0. apply report_backward.
    - rewrite (select_backward _ (fun l r => l ++ [r]) (fun _ _ y y' => y' = y) cols minRow maxRow pred (proj2 each_select)
        (fun n r y y' E => f_equal (fun q => tx_rows (snd q)) E) _ _ tbl l x2); [|reflexivity..|exact H].
      rewrite fold_rows. simpl. rewrite H0. reflexivity.
    - change (fun (_ : unit) s0 ref0 _ => match tcall s0 (CDelete ref0) with (OPanic, _) => None | (o, s) => Some (tt, ts_fail s (errs o)) end)
        with (one (fun n _ => CDelete n)).
      rewrite (select_backward _ (fun u _ => u) _ None minRow maxRow pred (proj2 (each_one (fun n _ => CDelete n)))
        (fun n r y y' E => ex_ind (fun o Q => delete_quiet _ _ _ _ (proj1 Q)) E) _ _ tbl l x2); [|reflexivity..|exact H].
      reflexivity.
    - rewrite (select_ext _ (one (fun n r => CUpdate n (fst (update r)) (snd (update r)))))
        by (intros u t n r; unfold one; destruct (update r); reflexivity).
      rewrite (select_backward _ (fun u _ => u) _ None minRow maxRow pred (proj2 (each_one (fun n r => CUpdate n (fst (update r)) (snd (update r)))))
        (fun n r y y' E => ex_ind (fun o Q => update_quiet _ _ _ _ _ _ (proj1 Q)) E) _ _ tbl l x2); [|reflexivity..|exact H].
      reflexivity.
  Qed.

  Lemma still_failed l : forall s s', Forall asks l -> testCases s l = Some s' -> ts_failed s' = false -> 
    ts_failed s = false /\ all_met (ts_state s) (hand_of s) l (ts_state s').
  Proof.
    induction l as [|c l IH]; intros s s' A E Hf; simpl in E.
    - injection E as ->. split; [exact Hf|constructor].
    - destruct (testCase s c) as [t|] eqn:E1; [|discriminate]. inversion_clear A as [|? ? A1 A2].
      destruct (IH _ _ A2 E Hf) as (Ft & H). destruct (case_forward _ _ _ A1 E1 Ft) as (Fs & M).
      split; [exact Fs|]. econstructor; eassumption.
  Qed.

  Lemma driver_exact x l x' : Forall asks l -> (test_passes x l x' <-> all_met x empty_hand l x').
  Proof.
    intros A. split.
    - intros (s & E & Hf & <-). exact (proj2 (still_failed _ _ _ A E Hf)).
    - unfold test_passes, testStorage. change {| ts_state := x; ts_tx := true; ts_tbl := None; ts_rows := None; ts_ref := None; ts_failed := false |} with (tstate_of x empty_hand).
      clear A. generalize empty_hand. intros h H. induction H as [x h|x h c x1 h1 l x2 M H IH].
      + eexists. split; [reflexivity|]. split; reflexivity.
      + simpl. rewrite (case_backward _ _ _ _ _ M). exact IH.
  Qed.
End Driver.
