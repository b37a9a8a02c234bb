(** The engine does what the machine with catalogues does. *)

From Verif Require Import ModelEngine SpecEngine LemmasBase LemmasKey LemmasValue LemmasIdent LemmasTree LemmasStore LemmasWorld
  LemmasHistory LemmasSerial LemmasTable LemmasContents LemmasTableFacts LemmasTableCalls LemmasTableTypes LemmasRows LemmasTyped
  LemmasExec LemmasSelect LemmasTypedTable LemmasCatalogue LemmasSystemTables LemmasEngineOps LemmasEngineCalls LemmasEngineInit.

Section Worlds.
  Context {X : FloatLib} {L : CaseLib} {G : GobLib}.

  Lemma ran_reachable h w : ran h w -> reachable w.
  Proof. intros (t & R). now exists t, (map fst h), (map snd h). Qed.

  Lemma active_view w x : wok w -> active w x <-> exists t, view w x = Some t.
  Proof.
    intros K. split.
    - intros (tx & F1 & Hl). destruct (wk_live w K x tx F1 Hl) as (t & Hs & _). exists t. eapply view_sees; eassumption.
    - intros (t & Hv). destruct (view_active w x t K Hv) as (tx & F1 & Hs & _). exists tx. split; [exact F1|exact (sees_live _ _ Hs)].
  Qed.

  Lemma unused_step w o out w' y : step w o = (out, w') -> o <> Begin y -> unused w y -> unused w' y.
  Proof.
    unfold unused. intros Es Hn Hu. destruct o as [x|x c|s q]; simpl in Es.
    - destruct (find_tx (w_txs w) x); [injection Es as _ <-; exact Hu|]. destruct (sh_locked (w_sh w)); injection Es as _ <-; [exact Hu|].
      cbn [w_txs]. rewrite find_app, Hu. cbn. destruct (Nat.eqb_spec x y) as [->|]; [contradiction|reflexivity].
    - destruct (find_tx (w_txs w) x) as [tx|] eqn:Fx; [|injection Es as _ <-; exact Hu].
      destruct (callStep (w_sh w, tx) c) as [o' [sh' tx']]. injection Es as _ <-. cbn [w_txs]. rewrite find_set, Fx.
      destruct (Nat.eqb_spec x y) as [->|]; [congruence|exact Hu].
    - injection Es as _ <-. exact Hu.
  Qed.

  Lemma gentle_run x lg : gentle_log x lg -> forall w outs w', reachable w -> run w (map fst lg) = (outs, w') ->
    committed w' = committed w /\ (forall y, unused w y -> unused w' y).
  Proof.
    unfold gentle_log. induction lg as [|[o out] lg IH]; cbn [map fst]; intros Hg w outs w' R E; simpl in E.
    - injection E as _ <-. auto.
    - inversion Hg as [|? ? H1 H2]; subst. destruct (step w o) as [out1 w1] eqn:E1. destruct (run w1 (map fst lg)) as [outs2 w2] eqn:E2.
      injection E as _ <-. destruct (IH H2 w1 outs2 w2 (reachable_step _ _ _ _ R E1) E2) as [I1 I2]. split.
      + rewrite I1. destruct (committed_step w o out1 w1 R E1) as [->|(y & -> & _ & _)]; [reflexivity|]. destruct H1 as (_ & _ & []).
      + intros y Hy. apply I2. eapply unused_step; [exact E1| |exact Hy]. intros ->. exact H1.
  Qed.

  Lemma complete_call h w x t c : ran h w -> view w x = Some t -> opened x h = closed x h -> c = CCommit \/ c = CRollback ->
    exists w', step w (Call x c) = (ODone, w') /\ sh_idt (w_sh w') = sh_idt (w_sh w) /\ (forall y, ~ active w' y) /\
      committed w' = match c with CCommit => t | _ => committed w end.
  Proof.
    intros R Hv Ho Hc. pose proof (ran_wok h w R) as K. pose proof (ran_reachable h w R) as Rr.
    pose proof (proj2 (active_view w x K) (ex_intro _ t Hv)) as Ha.
    destruct R as (t0 & R). destruct (completion_blocked t0 (map fst h) (map snd h) w x c R Ha Hc) as (H1 & _).
    assert (forall l : history, combine (map fst l) (map snd l) = l) as Hcomb.
    { induction l as [|[a b] l IH]; cbn; [reflexivity|]. now rewrite IH. }
    rewrite Hcomb in H1. specialize (H1 Ho). destruct (step w (Call x c)) as [out w'] eqn:Es. cbn [fst] in H1. subst out.
    exists w'. split; [reflexivity|]. destruct (complete_inactive w x c w' Rr Hc Es) as (_ & _ & Hna).
    apply step_cases in Es; [|exact K].
    inversion Es as [|  | | |x1 c1 tx1 out1 U D O|x1 c1 tx1 t1 out1 sh1 tx1' t1' Hf Hs Hv1 N1 N2 Ev Hs' SF
      |x1 c1 tx1 t1 Hf Hs Hv1 Hc0 C0|x1 c1 tx1 t1 h1 n1 Hf Hs Hv1 C0 Ht Hc0|]; subst.
    - destruct Hc as [-> | ->]; simpl in O; discriminate.
    - destruct Hc; congruence.
    - split; [reflexivity|]. split; [exact Hna|]. unfold committed. cbn [w_sh unlock sh_tree sh_heap].
      pose proof (view_sees w x tx1 t1 Hf Hs) as Hv2. rewrite Hv in Hv2. injection Hv2 as ->.
      destruct Hs as (_ & (h2 & Hh & Hn) & _). cbn [fst snd] in Hh, Hn. rewrite Ht in Hh. injection Hh as <-.
      destruct Hc0 as [[-> ->]|[-> ->]]; [|reflexivity]. now apply nth_error_nth.
  Qed.

  Lemma begin_call w x : reachable w -> unused w x -> (forall y, ~ active w y) ->
    exists w', step w (Begin x) = (ODone, w') /\ sh_idt (w_sh w') = sh_idt (w_sh w) /\ view w' x = Some (committed w) /\ committed w' = committed w.
  Proof.
    intros R U Hn. pose proof (proj2 (proj1 (begin_iff w x R U)) Hn) as Ho. destruct (step w (Begin x)) as [out w'] eqn:Es. cbn [fst] in Ho. subst out.
    exists w'. split; [reflexivity|]. destruct (begin_view w x w' R Es) as (B1 & B2 & _). split; [|auto].
    simpl in Es. destruct (find_tx (w_txs w) x); [discriminate|]. destruct (sh_locked (w_sh w)); [discriminate|]. injection Es as <-. reflexivity.
  Qed.
  Lemma begin_blocked w x y : reachable w -> unused w x -> active w y -> fst (step w (Begin x)) = OBlocked.
  Proof. intros R U Ha. apply (proj2 (begin_iff w x R U)). eauto. Qed.
End Worlds.

Section Engine.
  Context {X : FloatLib} {L : CaseLib} {G : GobLib} {F : Float32Lib} {E : EGobLib}.
  Context (HX : FloatLib_ok X) (HG : GobLib_ok G) (HL : CaseLib_ok L) (HF : Float32Lib_ok F) (HE : EGobLib_ok E).
  Context (I : einfos) (i0 : idtable) (ths : list idthread).
  Context (Hids : idreach (i0, ths)) (HI : sysinfos ths I).

  Notation four := [i_sequences I; i_databases I; i_schemas I; i_tables I].
  Notation has_tables t := (Forall (fun ti => recorded t (ti_tid ti) i0 (tb_tt (table_of ti))) four).

  (** The invariant. *)
  Record einv (h : history) (w : world) (n : nat) : Prop := {
    ei_ran : ran h w;
    ei_typed : Forall op_typed (map fst h);
    ei_drop : Forall no_drop (map fst h);
    ei_interns : interns i0 (sh_idt (w_sh w));
    ei_open : forall y, opened y h = closed y h;
    ei_committed : has_tables (committed w);
    ei_views : forall x t, view w x = Some t -> has_tables t;
    ei_unused : forall x, (n <= x)%nat -> unused w x
  }.

  Lemma einv_sys h w n x t : einv h w n -> view w x = Some t -> sys I i0 h w x t.
  Proof. intros [S1 S2 S3 S4 S5 S6 S7 S8] Hv. constructor; auto. exact (S7 _ _ Hv). Qed.

  Lemma einv_gentle {A} h w n x c (p : prog A) Q c' t0 : einv h w n -> pre I i0 h w x c -> interns t0 (sh_idt (w_sh w)) -> doesQ I i0 t0 p c Q c' ->
    exists r w' lg, exec w x p = (r, w', lg) /\ einv (h ++ lg) w' n /\ pre I i0 (h ++ lg) w' x c' /\ committed w' = committed w /\
      Q r (sh_idt (w_sh w')).
  Proof.
    intros Hi Hp Ht D. destruct (D h w x Hp Ht) as (r & w' & lg & Ex & Gl & Ho & Hp' & HQ).
    exists r, w', lg. split; [exact Ex|]. pose proof (exec_run x p w r w' lg Ex) as R.
    pose proof Hi as [S1 S2 S3 S4 S5 S6 S7 S8]. pose proof (ran_reachable h w S1) as Rr.
    destruct (gentle_run x lg Gl w _ w' Rr R) as [C1 C2]. split; [|auto].
    pose proof Hp' as (t' & S' & _). pose proof (sy_ran _ _ _ _ _ _ S') as R'. constructor; try apply S'.
    - intros y. rewrite opened_app, closed_app, (S5 y). destruct (Nat.eq_dec y x) as [->|Ny]; [congruence|].
      destruct (gentle_others x y lg Gl Ny) as [-> ->]. reflexivity.
    - rewrite C1. exact S6.
    - intros y t Hv. assert (y = x) as ->.
      { eapply active_unique; [eapply ran_reachable; exact R'|..]; apply (active_view w' _ (ran_wok _ _ R')); [eauto|].
        exists t'. exact (sy_view _ _ _ _ _ _ S'). }
      rewrite (sy_view _ _ _ _ _ _ S') in Hv. injection Hv as <-. exact (sy_recorded _ _ _ _ _ _ S').
    - intros y Hy. apply C2. auto.
  Qed.

  Lemma einv_begin h w n : einv h w n -> (forall y, ~ active w y) ->
    exists w' h', step w (Begin n) = (ODone, w') /\ einv h' w' (S n) /\ view w' n = Some (committed w) /\ committed w' = committed w /\
      sh_idt (w_sh w') = sh_idt (w_sh w).
  Proof.
    intros Hi Hn. pose proof Hi as [S1 S2 S3 S4 S5 S6 S7 S8]. pose proof (ran_reachable h w S1) as Rr.
    destruct (begin_call w n Rr (S8 n (le_n n)) Hn) as (w' & Es & Ei & Ev & Ec). exists w', (h ++ [(Begin n, ODone)]).
    split; [exact Es|]. split; [|auto]. assert (ran (h ++ [(Begin n, ODone)]) w') as R' by (eapply ran_ext; [exact S1|apply run_one; exact Es]).
    constructor.
    - exact R'.
    - rewrite map_app. apply Forall_app. split; [exact S2|]. repeat constructor.
    - rewrite map_app. apply Forall_app. split; [exact S3|]. repeat constructor.
    - now rewrite Ei.
    - intros y. rewrite opened_app, closed_app, (S5 y). reflexivity.
    - now rewrite Ec.
    - intros y t Hv. assert (y = n) as ->.
      { eapply active_unique; [eapply ran_reachable; exact R'|..]; apply (active_view w' _ (ran_wok _ _ R')); eauto. }
      rewrite Ev in Hv. injection Hv as <-. exact S6.
    - intros y Hy. eapply unused_step; [exact Es| |apply S8; lia]. intros [= ->]. lia.
  Qed.

  Lemma einv_complete h w n x t c : einv h w n -> view w x = Some t -> c = CCommit \/ c = CRollback ->
    exists w' h', step w (Call x c) = (ODone, w') /\ einv h' w' n /\ h' = h ++ [(Call x c, ODone)] /\ (forall y, ~ active w' y) /\
      committed w' = match c with CCommit => t | _ => committed w end /\ sh_idt (w_sh w') = sh_idt (w_sh w).
  Proof.
    intros Hi Hv Hc. pose proof Hi as [S1 S2 S3 S4 S5 S6 S7 S8].
    destruct (complete_call h w x t c S1 Hv (S5 x) Hc) as (w' & Es & Ei & Hna & Ec).
    exists w', (h ++ [(Call x c, ODone)]). split; [exact Es|]. split; [|auto 10].
    assert (ran (h ++ [(Call x c, ODone)]) w') as R' by (eapply ran_ext; [exact S1|apply run_one; exact Es]).
    constructor.
    - exact R'.
    - rewrite map_app. apply Forall_app. split; [exact S2|]. destruct Hc as [-> | ->]; repeat constructor.
    - rewrite map_app. apply Forall_app. split; [exact S3|]. destruct Hc as [-> | ->]; repeat constructor.
    - now rewrite Ei.
    - intros y. rewrite opened_app, closed_app, (S5 y). unfold opened, closed, count_calls.
      destruct Hc as [-> | ->]; cbn [filter]; rewrite !andb_false_r; reflexivity.
    - rewrite Ec. destruct Hc as [-> | ->]; [eapply S7; exact Hv|exact S6].
    - intros y t' Hv'. exfalso. apply (Hna y). apply (active_view w' _ (ran_wok _ _ R')). eauto.
    - intros y Hy. eapply unused_step; [exact Es|discriminate|auto].
  Qed.

  (** ** The simulation *)
  Definition plain (out : eout) : Prop := match out with EDone | ENames _ | ETable _ _ => True | _ => False end.

  Lemma agrees_plain t out n : agrees t out n -> plain out -> match n with NDone | NNames _ | NTable _ _ => True | _ => False end.
  Proof. destruct n; cbn; try tauto; intros -> []. Qed.

  Lemma alone_sim {A} h s m (p : prog A) (f : A -> eout) (g : catalogue -> nout * catalogue) out s' :
    einv h (e_w s) (e_next s) -> represents s m -> (forall a, plain (f a)) ->
    doesQ I i0 (e_idt s) p (m_cat m) (is_result f (fst (g (m_cat m)))) (snd (g (m_cat m))) ->
    inNew s (completing p) f = (out, s') ->
    exists h', einv h' (e_w s') (e_next s') /\ represents s' (snd (alone m g)) /\ agrees (e_idt s') out (fst (alone m g)).
  Proof.
    intros Hi [R1 R2 R3] Hf D Es. unfold inNew in Es. pose proof (ran_reachable _ _ (ei_ran _ _ _ Hi)) as Rr.
    pose proof (ei_unused _ _ _ Hi (e_next s) (le_n _)) as Hu. unfold alone. destruct (m_cur m) as [[o c]|] eqn:Em.
    - destruct R3 as (x & t & Hv & Hh & Hk).
      assert (active (e_w s) x) as Ha by (apply (active_view _ _ (ran_wok _ _ (ei_ran _ _ _ Hi))); eauto).
      pose proof (begin_blocked (e_w s) (e_next s) x Rr Hu Ha) as Hb. destruct (step (e_w s) (Begin (e_next s))) as [o1 w1]. cbn [fst] in Hb. subst o1.
      injection Es as <- <-. exists h. split; [exact Hi|]. cbn [fst snd]. split; [|reflexivity]. constructor; [exact R1|exact R2|]. rewrite Em. exists x, t. auto.
    - destruct R3 as [Hna Hnh]. destruct (einv_begin h (e_w s) (e_next s) Hi Hna) as (w1 & h1 & Eb & Hi1 & Hv1 & Hc1 & Hd1). rewrite Eb in Es.
      assert (pre I i0 h1 w1 (e_next s) (m_cat m)) as Hp1 by (exists (committed (e_w s)); split; [eapply einv_sys; eassumption|exact R1]).
      destruct (einv_gentle h1 w1 (S (e_next s)) (e_next s) (m_cat m) p _ _ (e_idt s) Hi1 Hp1 ltac:(rewrite Hd1; constructor) D)
        as (r & w2 & lg & Ex & Hi2 & (t2 & Sy2 & Hh2) & Hc2 & Q). pose proof (sy_view _ _ _ _ _ _ Sy2) as Hv2.
      unfold completing in Es. rewrite exec_pthen, Ex in Es. unfold is_result in Q. destruct (g (m_cat m)) as [n c'] eqn:Eg. cbn [fst snd] in *.
      destruct r as [a|e|].
      + destruct (einv_complete _ w2 _ (e_next s) t2 CCommit Hi2 Hv2 (or_introl eq_refl)) as (w3 & h3 & Ec & Hi3 & _ & Hna3 & Hc3 & Hd3).
        unfold call, pbind in Es. cbn [pthen exec] in Es. rewrite Ec in Es. cbn [exec pret pthen eresult] in Es. injection Es as <- <-.
        exists h3. cbn [e_w e_next]. split; [exact Hi3|]. pose proof (agrees_plain _ _ _ Q (Hf a)) as Hpl.
        assert (represents {| e_w := w3; e_next := S (e_next s); e_txs := e_txs s |} {| m_cat := c'; m_cur := None; m_count := m_count m |}) as Hrep
          by (constructor; cbn [m_cat m_cur m_count e_w e_txs]; [rewrite Hc3; exact Hh2|exact R2|auto]).
        unfold e_idt. cbn [e_w]. rewrite Hd3. destruct n; try contradiction; cbn [fst snd]; (split; [exact Hrep|exact Q]).
      + destruct (einv_complete _ w2 _ (e_next s) t2 CRollback Hi2 Hv2 (or_intror eq_refl)) as (w3 & h3 & Ec & Hi3 & _ & Hna3 & Hc3 & Hd3).
        unfold rollbackWith, call in Es. cbn [pthen exec] in Es. rewrite Ec in Es. cbn [exec pret pthen eresult] in Es. injection Es as <- <-.
        exists h3. cbn [e_w e_next]. split; [exact Hi3|]. cbn [eresult] in Q. unfold e_idt. cbn [e_w]. rewrite Hd3.
        destruct n; cbn [agrees] in Q; try discriminate; try (destruct Q as (? & [=] & _)). cbn [fst snd]. split; [|exact Q].
        constructor; cbn [m_cat m_cur m_count e_w e_txs]; [rewrite Hc3, Hc2, Hc1; exact R1|exact R2|]. rewrite Em. auto.
      + cbn [exec ppanic eresult] in Es. injection Es as <- <-. exists (h1 ++ lg). cbn [e_w e_next]. split; [exact Hi2|].
        cbn [eresult] in Q. unfold e_idt. cbn [e_w].
        destruct n; cbn [agrees] in Q; try discriminate; try (destruct Q as (? & [=] & _)). cbn [fst snd]. split; [|exact Q].
        constructor; cbn [m_cat m_cur m_count e_w e_txs]; [rewrite Hc2, Hc1; exact R1|exact R2|]. exists (e_next s), t2. split; [exact Hv2|]. split; [exact Hh2|].
        intros k y. split; [intros Hk; exfalso; exact (Hnh _ _ Hk)|intros [[=] _]].
  Qed.

  Lemma within_sim {A} h s m k (p : prog A) (f : A -> eout) (g : catalogue -> nout * catalogue) out s' :
    einv h (e_w s) (e_next s) -> represents s m ->
    (forall c, doesQ I i0 (e_idt s) p c (is_result f (fst (g c))) (snd (g c))) ->
    inTx s k p f = (out, s') ->
    exists h', einv h' (e_w s') (e_next s') /\ represents s' (snd (within m k g)) /\ agrees (e_idt s') out (fst (within m k g)).
  Proof.
    intros Hi R D Es. pose proof R as [R1 R2 R3]. unfold inTx in Es. unfold within.
    destruct (nth_error (e_txs s) k) as [[x|]|] eqn:Ek.
    - assert ((k <? m_count m)%nat = true) as -> by (apply Nat.ltb_lt; rewrite <- R2; apply nth_error_Some; congruence).
      destruct (m_cur m) as [[o c]|] eqn:Em; [|exfalso; exact (proj2 R3 _ _ Ek)].
      destruct R3 as (y & t & Hv & Hh & Hk). destruct (proj1 (Hk k x) Ek) as [-> ->]. rewrite Nat.eqb_refl.
      assert (pre I i0 h (e_w s) y c) as Hp by (exists t; split; [eapply einv_sys; eassumption|exact Hh]).
      destruct (einv_gentle h (e_w s) (e_next s) y c p _ _ (e_idt s) Hi Hp ltac:(constructor) (D c)) as (r & w2 & lg & Ex & Hi2 & (t2 & Sy2 & Hh2) & Hc2 & Q).
      rewrite Ex in Es. injection Es as <- <-. exists (h ++ lg). cbn [e_w e_next fst snd]. split; [exact Hi2|]. split; [|exact Q].
      constructor; cbn [m_cat m_cur m_count e_w e_txs]; [rewrite Hc2; exact R1|exact R2|]. exists y, t2. split; [exact (sy_view _ _ _ _ _ _ Sy2)|]. auto.
    - assert ((k <? m_count m)%nat = true) as -> by (apply Nat.ltb_lt; rewrite <- R2; apply nth_error_Some; congruence).
      injection Es as <- <-. exists h. split; [exact Hi|]. destruct (m_cur m) as [[[j|] c]|] eqn:Em; try (split; [exact R|reflexivity]).
      destruct (Nat.eqb_spec j k) as [->|]; [|split; [exact R|reflexivity]].
      destruct R3 as (y & t & Hv & Hh & Hk). pose proof (proj2 (Hk k y) (conj eq_refl eq_refl)). congruence.
    - assert ((k <? m_count m)%nat = false) as -> by (apply Nat.ltb_ge; rewrite <- R2; apply nth_error_None; exact Ek).
      injection Es as <- <-. exists h. split; [exact Hi|]. split; [exact R|reflexivity].
  Qed.

  Lemma set_nth_spec {A} k (a : A) l j : nth_error (set_nth k a l) j =
    if (j =? k)%nat then match nth_error l k with Some _ => Some a | None => None end else nth_error l j.
  Proof.
    revert l j. induction k as [|k IH]; intros [|b l] [|j]; cbn [set_nth nth_error Nat.eqb]; try reflexivity.
    - now destruct (j =? k)%nat.
    - apply IH.
  Qed.
  Lemma set_nth_length {A} k (a : A) l : length (set_nth k a l) = length l.
  Proof. revert k. induction l as [|b l IH]; intros [|k]; cbn [set_nth length]; congruence. Qed.

  Lemma complete_sim h s m k c out s' : einv h (e_w s) (e_next s) -> represents s m -> c = CCommit \/ c = CRollback ->
    completeTx s k c = (out, s') ->
    let g := match c with CCommit => fun c => c | _ => fun _ => m_cat m end in
    exists h', einv h' (e_w s') (e_next s') /\ represents s' (snd (complete_with m k g)) /\ agrees (e_idt s') out (fst (complete_with m k g)).
  Proof.
    intros Hi R Hc Es g. pose proof R as [R1 R2 R3]. unfold completeTx in Es. unfold complete_with.
    destruct (nth_error (e_txs s) k) as [[x|]|] eqn:Ek.
    - assert ((k <? m_count m)%nat = true) as -> by (apply Nat.ltb_lt; rewrite <- R2; apply nth_error_Some; congruence).
      destruct (m_cur m) as [[o c0]|] eqn:Em; [|exfalso; exact (proj2 R3 _ _ Ek)].
      destruct R3 as (y & t & Hv & Hh & Hk). destruct (proj1 (Hk k x) Ek) as [-> ->]. rewrite Nat.eqb_refl.
      destruct (einv_complete h (e_w s) (e_next s) y t c Hi Hv Hc) as (w2 & h2 & Ec & Hi2 & _ & Hna & Hc2 & Hd). rewrite Ec in Es.
      injection Es as <- <-. exists h2. cbn [e_w e_next fst snd]. split; [exact Hi2|]. split; [|reflexivity].
      constructor; cbn [m_cat m_cur m_count e_w e_txs].
      + rewrite Hc2. unfold g. destruct Hc as [-> | ->]; assumption.
      + now rewrite set_nth_length.
      + split; [exact Hna|]. intros j z. rewrite set_nth_spec. destruct (Nat.eqb_spec j k) as [->|Nj]; [rewrite Ek; discriminate|].
        intros Hj. destruct (proj1 (Hk j z) Hj) as [[= ->] _]. contradiction.
    - assert ((k <? m_count m)%nat = true) as -> by (apply Nat.ltb_lt; rewrite <- R2; apply nth_error_Some; congruence).
      injection Es as <- <-. exists h. split; [exact Hi|]. destruct (m_cur m) as [[[j|] c0]|] eqn:Em; try (split; [exact R|reflexivity]).
      destruct (Nat.eqb_spec j k) as [->|]; [|split; [exact R|reflexivity]].
      destruct R3 as (y & t & Hv & Hh & Hk). pose proof (proj2 (Hk k y) (conj eq_refl eq_refl)). congruence.
    - assert ((k <? m_count m)%nat = false) as -> by (apply Nat.ltb_ge; rewrite <- R2; apply nth_error_None; exact Ek).
      injection Es as <- <-. exists h. split; [exact Hi|]. split; [exact R|reflexivity].
  Qed.

  Lemma stub_sim s m k out s' o1 n : represents s m -> stub s k o1 = (out, s') -> agrees (e_idt s) o1 n ->
    s' = s /\ agrees (e_idt s) out (if (k <? m_count m)%nat then n else NNoObject).
  Proof.
    intros [R1 R2 R3] Es Ha. unfold stub in Es. destruct (nth_error (e_txs s) k) eqn:Ek; injection Es as <- <-; (split; [reflexivity|]).
    - assert ((k <? m_count m)%nat = true) as -> by (apply Nat.ltb_lt; rewrite <- R2; apply nth_error_Some; congruence). exact Ha.
    - assert ((k <? m_count m)%nat = false) as -> by (apply Nat.ltb_ge; rewrite <- R2; apply nth_error_None; exact Ek). reflexivity.
  Qed.

  Lemma unit_result p c n c' t0 : (n = NDone \/ (exists e, n = NErr e) \/ n = NPanic) -> does I i0 t0 p c (unit_res n) c' ->
    doesQ I i0 t0 p c (is_result (fun _ : unit => EDone) n) c'.
  Proof.
    intros Hn D. eapply doesQ_conseq; [|exact D]. intros r t _ ->. unfold is_result.
    destruct Hn as [-> |[(e & ->)| ->]]; reflexivity.
  Qed.

  Ltac outs := unfold create_database, drop_database, create_schema, drop_schema, create_table; cbv zeta;
    repeat match goal with |- context [if ?b then _ else _] => destruct b end; cbn [fst]; eauto.

  Lemma intern_inv h w n s q : einv h w n -> exists h', einv h' (snd (step w (Intern s q))) n.
  Proof.
    intros [S1 S2 S3 S4 S5 S6 S7 S8]. destruct (step w (Intern s q)) as [out w'] eqn:Es. exists (h ++ [(Intern s q, out)]). cbn [snd].
    pose proof (run_one _ _ _ _ Es) as R. constructor.
    - eapply ran_ext; eassumption.
    - rewrite map_app. apply Forall_app. split; [exact S2|]. repeat constructor.
    - rewrite map_app. apply Forall_app. split; [exact S3|]. repeat constructor.
    - eapply interns_trans; [exact S4|]. eapply run_later; [eapply ran_wok; exact S1|exact R].
    - intros y. rewrite opened_app, closed_app, (S5 y). simpl in Es. injection Es as <- _. reflexivity.
    - simpl in Es. injection Es as _ <-. exact S6.
    - simpl in Es. injection Es as _ <-. exact S7.
    - intros y Hy. eapply unused_step; [exact Es|discriminate|auto].
  Qed.

  Lemma engine_sim h s m c out s' : einv h (e_w s) (e_next s) -> represents s m -> known_call (e_idt s) c -> estep I s c = (out, s') ->
    exists h', einv h' (e_w s') (e_next s') /\ represents s' (snd (mstep m (named (e_idt s) c))) /\
      agrees (e_idt s') out (fst (mstep m (named (e_idt s) c))).
  Proof.
    intros Hi R Hk Es. pose proof (ei_interns _ _ _ Hi) as Ht0. fold (e_idt s) in Ht0.
    destruct c as [dn opts|dn ifx| | |k|k|k dn sn|k dn sn ifx|k dn|k tn|k tn cn ct p|k tn|k dn sn|k tn ix key|k tn ix|sp q]; cbn [estep named mstep known_call] in *.
    - destruct opts as [|o opts].
      + eapply alone_sim; try eassumption; [exact (fun _ => Logic.I)|]. apply unit_result; [outs|].
        exact (create_database_does HX HG HL HF I i0 ths Hids HI (e_idt s) Ht0 dn (m_cat m) Hk).
      + injection Es as <- <-. exists h. split; [exact Hi|]. split; [exact R|reflexivity].
    - eapply alone_sim; try eassumption; [exact (fun _ => Logic.I)|]. apply unit_result; [outs|].
      exact (drop_database_does HX HG HL I i0 ths Hids HI (e_idt s) Ht0 dn ifx (m_cat m) Hk).
    - eapply alone_sim; try eassumption; [exact (fun _ => Logic.I)|].
      exact (list_databases_does HX HG HL I i0 ths Hids HI (e_idt s) Ht0 (m_cat m)).
    - pose proof R as [R1 R2 R3]. pose proof (ran_reachable _ _ (ei_ran _ _ _ Hi)) as Rr.
      pose proof (ei_unused _ _ _ Hi (e_next s) (le_n _)) as Hu. destruct (m_cur m) as [[o c]|] eqn:Em.
      + destruct R3 as (x & t & Hv & Hh & Hkk).
        assert (active (e_w s) x) as Ha by (apply (active_view _ _ (ran_wok _ _ (ei_ran _ _ _ Hi))); eauto).
        pose proof (begin_blocked (e_w s) (e_next s) x Rr Hu Ha) as Hb. destruct (step (e_w s) (Begin (e_next s))) as [o1 w1]. cbn [fst] in Hb. subst o1.
        injection Es as <- <-. exists h. split; [exact Hi|]. cbn [fst snd]. split; [exact R|reflexivity].
      + destruct R3 as [Hna Hnh]. destruct (einv_begin h (e_w s) (e_next s) Hi Hna) as (w1 & h1 & Eb & Hi1 & Hv1 & Hc1 & Hd1). rewrite Eb in Es.
        injection Es as <- <-. exists h1. cbn [e_w e_next fst snd]. split; [exact Hi1|]. split; [|reflexivity].
        constructor; cbn [m_cat m_cur m_count e_w e_txs]; [rewrite Hc1; exact R1|rewrite app_length, R2; cbn; lia|].
        exists (e_next s), (committed (e_w s)). split; [exact Hv1|]. split; [exact R1|]. intros k y. rewrite <- R2. split.
        * intros Hj. destruct (Nat.lt_ge_cases k (length (e_txs s))) as [Hlt|Hge].
          -- rewrite nth_error_app1 in Hj by exact Hlt. exfalso. exact (Hnh _ _ Hj).
          -- rewrite nth_error_app2 in Hj by exact Hge. destruct (k - length (e_txs s))%nat as [|j] eqn:Ek; [|destruct j; discriminate].
             injection Hj as <-. split; [f_equal; lia|reflexivity].
        * intros [[= <-] ->]. rewrite nth_error_app2, Nat.sub_diag by lia. reflexivity.
    - exact (complete_sim h s m k CCommit out s' Hi R (or_introl eq_refl) Es).
    - exact (complete_sim h s m k CRollback out s' Hi R (or_intror eq_refl) Es).
    - eapply within_sim; try eassumption. intros c. apply unit_result; [outs|].
      exact (create_schema_does HX HG HL HF I i0 ths Hids HI (e_idt s) Ht0 dn sn c (proj1 Hk) (proj2 Hk)).
    - eapply within_sim; try eassumption. intros c. apply unit_result; [outs|].
      exact (drop_schema_does HX HG HL I i0 ths Hids HI (e_idt s) Ht0 dn sn ifx c (proj1 Hk) (proj2 Hk)).
    - eapply within_sim; try eassumption. intros c.
      exact (list_schemas_does HX HG HL I i0 ths Hids HI (e_idt s) Ht0 dn c Hk).
    - eapply within_sim; try eassumption. intros c. destruct Hk as (K1 & K2 & K3).
      exact (open_table_does HX HG HL HE I i0 ths Hids HI (e_idt s) Ht0 tn c K1 K2 K3).
    - eapply within_sim; try eassumption. intros c. destruct Hk as (K1 & K2 & K3 & K4). apply unit_result; [outs|].
      exact (create_table_does HX HG HL HF I i0 ths Hids HI (e_idt s) Ht0 tn cn ct p c K1 K2 K3 K4).
    - destruct (stub_sim s m k out s' EDone NDone R Es eq_refl) as [-> Ha]. exists h. auto.
    - assert (agrees (e_idt s) (ENames []) (NNames [])) as Ha0 by (exists []; split; [reflexivity|]; split; constructor).
      destruct (stub_sim s m k out s' _ _ R Es Ha0) as [-> Ha]. exists h. auto.
    - destruct (stub_sim s m k out s' EDone NDone R Es eq_refl) as [-> Ha]. exists h. auto.
    - destruct (stub_sim s m k out s' EDone NDone R Es eq_refl) as [-> Ha]. exists h. auto.
    - injection Es as <- <-. destruct (intern_inv h (e_w s) (e_next s) sp q Hi) as (h' & Hi'). exists h'. cbn [e_w e_next fst snd]. split; [exact Hi'|].
      split; [|reflexivity]. destruct R as [R1 R2 R3]. constructor; cbn [e_w e_txs]; [exact R1|exact R2|]. destruct (m_cur m) as [[o c]|]; exact R3.
  Qed.
End Engine.

(** ** Initialisation *)
Section Boot.
  Context {X : FloatLib} {L : CaseLib} {G : GobLib} {F : Float32Lib} {E : EGobLib}.
  Context (HX : FloatLib_ok X) (HG : GobLib_ok G) (HL : CaseLib_ok L) (HF : Float32Lib_ok F) (HE : EGobLib_ok E).

  Lemma quiet_log {A} x (p : prog A) : quiet p -> forall w r w' lg, exec w x p = (r, w', lg) -> Forall is_intern (map fst lg).
  Proof.
    induction 1 as [r0|s q k Hq IH|i k Hq IH]; intros w r w' lg Ex; cbn [exec] in Ex.
    - injection Ex as _ _ <-. constructor.
    - destruct (step w (Intern s q)) as [out w1]. destruct (exec w1 x _) as [[r2 w2] h2] eqn:E2. injection Ex as _ _ <-.
      constructor; [exists s, q; reflexivity|]. eapply IH; exact E2.
    - eapply IH; exact Ex.
  Qed.

  Lemma interns_run ops : Forall is_intern ops -> forall w outs w', run w ops = (outs, w') -> w_txs w' = w_txs w /\ committed w' = committed w.
  Proof.
    induction 1 as [|o ops (s & q & ->) H IH]; intros w outs w' R; simpl in R; [injection R as _ <-; auto|].
    destruct (run _ ops) as [outs2 w2] eqn:E2. injection R as _ <-. destruct (IH _ _ _ E2) as [I1 I2]. rewrite I1, I2. auto.
  Qed.
  Lemma interns_ops ops : Forall is_intern ops -> Forall op_typed ops /\ Forall no_drop ops.
  Proof. intros H. split; (eapply Forall_impl; [|exact H]); intros o (s & q & ->); exact Logic.I. Qed.
  Lemma interns_opened x h : Forall is_intern (map fst h) -> opened x h = 0%nat /\ closed x h = 0%nat.
  Proof.
    unfold opened, closed, count_calls. induction h as [|[o out] h IH]; intros H; [auto|]. apply Forall_cons_iff in H. destruct H as [(s & q & Ho) H2].
    cbn [fst] in Ho. subst o. cbn [filter]. auto.
  Qed.

  Lemma exec_unused {A} x y (p : prog A) : forall w r w' lg, exec w x p = (r, w', lg) -> unused w y -> unused w' y.
  Proof.
    induction p as [r0|c f IH|s q f IH|i f IH]; intros w r w' lg Ex Hu; cbn [exec] in Ex.
    - injection Ex as _ <- _. exact Hu.
    - destruct (step w (Call x c)) as [out w1] eqn:E1. destruct (exec w1 x _) as [[r2 w2] h2] eqn:E2. injection Ex as _ <- _.
      eapply IH; [exact E2|]. eapply unused_step; [exact E1|discriminate|exact Hu].
    - destruct (step w (Intern s q)) as [out w1] eqn:E1. destruct (exec w1 x _) as [[r2 w2] h2] eqn:E2. injection Ex as _ <- _.
      eapply IH; [exact E2|]. eapply unused_step; [exact E1|discriminate|exact Hu].
    - eapply IH; eassumption.
  Qed.

  Lemma quiet_makeInfos {U : RuneLib} : quiet makeInfos.
  Proof. unfold makeInfos. repeat (apply quiet_bind; [apply quiet_info|intros ?]). constructor. Qed.

  (** What holds before [Init]. *)
  Lemma before_init (U : RuneLib) I t ths w lg ids : RuneLib_ascii U -> idreach (t, ths) -> exec (newStore t) 0 makeInfos = (Ok I, w, lg) ->
    Forall is_intern ids ->
    let w1 := snd (run w ids) in
    exists h ths', ran h w1 /\ Forall is_intern (map fst h) /\ w_txs w1 = [] /\ committed w1 = [] /\ idreach (sh_idt (w_sh w1), ths') /\
      sysinfos ths' I /\ names_returned ths'.
  Proof.
    intros HU Hr Ex Hid w1. destruct (exec_quiet 0 _ quiet_makeInfos _ _ _ _ Ex) as (Q & _). cbn [newStore w_sh sh_idt] in Q.
    destruct (infos_made t ths HU Hr) as (I' & t' & ths1 & Q' & Hr1 & _ & HI & HN). rewrite Q in Q'. injection Q' as <- <-.
    pose proof (exec_run 0 _ _ _ _ _ Ex) as R. pose proof (quiet_log 0 _ quiet_makeInfos _ _ _ _ Ex) as Hl.
    destruct (interns_run _ Hl _ _ _ R) as [T1 C1]. subst w1. destruct (run w ids) as [outs w1] eqn:R1. cbn [snd].
    destruct (interns_run _ Hid _ _ _ R1) as [T2 C2].
    assert (ran lg w) as Rn by (exists t; exact R).
    assert (length outs = length ids) as Hlen.
    { clear - R1. revert w outs R1. induction ids as [|o ids IH]; intros w outs R1; simpl in R1; [injection R1 as <- _; reflexivity|].
      destruct (step w o) as [out w2]. destruct (run w2 ids) as [outs2 w3] eqn:R2. injection R1 as <- <-. cbn. f_equal. eapply IH; exact R2. }
    assert (map fst (combine ids outs) = ids /\ map snd (combine ids outs) = outs) as [Ef Es].
    { clear - Hlen. revert outs Hlen. induction ids as [|a ids IH]; intros [|b outs] H; try discriminate; [auto|]. cbn. injection H as H.
      destruct (IH outs H) as [-> ->]. auto. }
    destruct (interns_reach _ _ (run_later ids w outs w1 (ran_wok _ _ Rn) R1) ths1 Hr1) as (ths2 & Hr2 & K).
    exists (lg ++ combine ids outs), ths2. split; [eapply ran_ext; [exact Rn|]; now rewrite Ef, Es|].
    split; [rewrite map_app, Ef; now apply Forall_app|]. split; [rewrite T2, T1; reflexivity|]. split; [rewrite C2, C1; reflexivity|].
    split; [exact Hr2|]. split; [eapply sysinfos_mono; [exact K|exact HI]|].
    eapply Forall_impl; [|exact HN]. intros e. apply K.
  Qed.

  Lemma init_runs I h ths w1 : ran h w1 -> Forall is_intern (map fst h) -> w_txs w1 = [] -> committed w1 = [] ->
    idreach (sh_idt (w_sh w1), ths) -> sysinfos ths I -> names_returned ths ->
    let s0 := {| e_w := w1; e_next := 0; e_txs := [] |} in
    (defs_fit = true <-> fst (Init I s0) = EDone) /\
    (fst (Init I s0) = EDone -> exists h', einv I (sh_idt (w_sh w1)) h' (e_w (snd (Init I s0))) (e_next (snd (Init I s0))) /\
       represents (snd (Init I s0)) first_machine).
  Proof.
    intros Hran Hint Htx Hc Hr HI HN s0. unfold Init, inNew. cbn [e_w e_next e_txs s0].
    destruct (begin_call w1 0 (ran_reachable _ _ Hran)) as (w2 & Es & Ei & Ev & Ec);
      [unfold unused; now rewrite Htx|intros y (tx & F1 & _); rewrite Htx in F1; discriminate|]. rewrite Es.
    pose proof (interns_ops _ Hint) as [Ho1 Ho2].
    assert (at_init (sh_idt (w_sh w1)) [] (fun _ => []) (h ++ [(Begin 0, ODone)]) w2 0) as A0.
    { exists []. split.
      - constructor.
        + eapply ran_ext; [exact Hran|apply run_one; exact Es].
        + rewrite map_app. apply Forall_app. split; [exact Ho1|repeat constructor].
        + rewrite map_app. apply Forall_app. split; [exact Ho2|repeat constructor].
        + congruence.
        + rewrite Ei. constructor.
        + constructor.
        + intros y. rewrite opened_app, closed_app. destruct (interns_opened y h Hint) as [-> ->]. reflexivity.
        + intros k (b & []).
      - intros k _. constructor. }
    assert (forall y, (1 <= y)%nat -> unused w2 y) as Hu.
    { intros y Hy. eapply unused_step; [exact Es|intros H0; assert (0%nat = y) by congruence; lia|]. unfold unused. now rewrite Htx. }
    destruct (init_store HX HG HL HF I _ ths Hr HI HN _ w2 0 A0) as [D1 D2].
    unfold completing. rewrite exec_pthen. destruct (exec w2 0 (initStore I)) as [[r w3] lg] eqn:Ex.
    destruct r as [u|e|].
    - specialize (D2 _ _ _ eq_refl). destruct (D1 D2) as (w' & lg' & Ex' & (t & P & HR)). injection Ex' as -> <- <-.
      pose proof P as [S1 S2 S3 S4 S5 S6 S7 S8].
      destruct (complete_call _ w3 0 t CCommit S1 S4 (S7 _) (or_introl eq_refl)) as (w4 & Es4 & Ei4 & Hna & Ec4).
      unfold call, pbind. cbn [pthen exec]. rewrite Es4. cbn [exec pret pthen eresult fst snd e_w e_next]. split; [tauto|]. intros _.
      set (h4 := (h ++ [(Begin 0, ODone)]) ++ lg) in *.
      exists (h4 ++ [(Call 0 CCommit, ODone)]). assert (ran (h4 ++ [(Call 0%nat CCommit, ODone)]) w4) as R4 by (eapply ran_ext; [exact S1|apply run_one; exact Es4]).
      split.
      + constructor.
        * exact R4.
        * rewrite map_app. apply Forall_app. split; [exact S2|repeat constructor].
        * rewrite map_app. apply Forall_app. split; [exact S3|repeat constructor].
        * rewrite Ei4. exact S5.
        * intros y. rewrite opened_app, closed_app, (S7 y). unfold opened, closed, count_calls. cbn [filter]. rewrite !andb_false_r. reflexivity.
        * rewrite Ec4. rewrite Forall_forall in *. intros ti Hti. apply S6. destruct Hti as [<-|[<-|[<-|[<-|[]]]]]; cbn; auto.
        * intros y t' Hv'. exfalso. apply (Hna y). apply (active_view w4 _ (ran_wok _ _ R4)). eauto.
        * intros y Hy. eapply unused_step; [exact Es4|discriminate|]. eapply exec_unused; [exact Ex|]. apply Hu. exact Hy.
      + constructor; cbn [m_cat m_cur m_count first_machine e_w e_txs].
        * rewrite Ec4. constructor.
          -- apply Forall_forall. assert (forallb fits (c_databases first_catalogue ++ map fst (c_schemas first_catalogue) ++ map snd (c_schemas first_catalogue)) = true) as Hf
               by (vm_compute; reflexivity). rewrite forallb_forall in Hf. exact Hf.
          -- specialize (HR 16 ltac:(lia)). apply Permutation_sym, Permutation_length_1_inv in HR. exact HR.
          -- exact (HR 17 ltac:(lia)).
          -- exact (HR 18 ltac:(lia)).
          -- exact (HR 19 ltac:(lia)).
        * reflexivity.
        * split; [exact Hna|]. intros [|k] x; discriminate.
    - assert (defs_fit <> true) as Hd by (intros H; destruct (D1 H) as (? & ? & [=] & _)).
      unfold rollbackWith, call. cbn [pthen exec]. destruct (step w3 (Call 0 CRollback)) as [o w4]. 
      split; [split; [contradiction|]|]; destruct o; cbn; discriminate.
    - assert (defs_fit <> true) as Hd by (intros H; destruct (D1 H) as (? & ? & [=] & _)). cbn. split; [split; [contradiction|]|]; discriminate.
  Qed.

  Lemma booted_inv I s : booted I s -> exists h i0 ths, idreach (i0, ths) /\ sysinfos ths I /\ einv I i0 h (e_w s) (e_next s) /\
    represents s first_machine.
  Proof.
    intros (U & t & ths & w & lg & ids & HU & Hr & Ex & Hid & Hin).
    destruct (before_init U I t ths w lg ids HU Hr Ex Hid) as (h & ths' & H1 & H2 & H3 & H4 & H5 & H6 & H7).
    destruct (init_runs I h ths' _ H1 H2 H3 H4 H5 H6 H7) as [_ K]. rewrite Hin in K. cbn [fst snd] in K. destruct (K eq_refl) as (h' & K1 & K2).
    exists h', (sh_idt (w_sh (snd (run w ids)))), ths'. auto.
  Qed.

  (** [Init] succeeds if the definitions of its own tables fit. *)
  Lemma init_succeeds U I t ths w lg ids : RuneLib_ascii U -> idreach (t, ths) -> exec (newStore t) 0 makeInfos = (Ok I, w, lg) ->
    Forall is_intern ids ->
    (fst (Init I {| e_w := snd (run w ids); e_next := 0; e_txs := [] |}) = EDone <->
     Forall (fun e => def_fits (snd (snd e)) = true) (c_tables first_catalogue)).
  Proof.
    intros HU Hr Ex Hid. destruct (before_init U I t ths w lg ids HU Hr Ex Hid) as (h & ths' & H1 & H2 & H3 & H4 & H5 & H6 & H7).
    destruct (init_runs I h ths' _ H1 H2 H3 H4 H5 H6 H7) as [K _]. rewrite <- K. unfold defs_fit, sys_rows. rewrite forallb_forall, Forall_forall. reflexivity.
  Qed.
  Lemma infos_succeed U t ths : RuneLib_ascii U -> idreach (t, ths) -> exists I w lg, exec (newStore t) 0 makeInfos = (Ok I, w, lg).
  Proof.
    intros HU Hr. destruct (exec (newStore t) 0 makeInfos) as [[r w] lg] eqn:Ex.
    destruct (exec_quiet 0 _ quiet_makeInfos _ _ _ _ Ex) as (Q & _). cbn [newStore w_sh sh_idt] in Q.
    destruct (infos_made t ths HU Hr) as (I' & t' & ths1 & Q' & _). rewrite Q in Q'. injection Q' as -> _. eauto.
  Qed.

  Lemma ereach_inv I n s : ereach I n s -> exists h i0 ths m, idreach (i0, ths) /\ sysinfos ths I /\ einv I i0 h (e_w s) (e_next s) /\
    represents s m /\ mreach n m.
  Proof.
    induction 1 as [s Hb|n s c out s' Hr IH Hk Es].
    - destruct (booted_inv I s Hb) as (h & i0 & ths & H1 & H2 & H3 & H4). exists h, i0, ths, first_machine. repeat (split; [assumption|]). constructor.
    - destruct IH as (h & i0 & ths & m & H1 & H2 & H3 & H4 & H5).
      destruct (engine_sim HX HG HL HF HE I i0 ths H1 H2 h s m c out s' H3 H4 Hk Es) as (h' & K1 & K2 & _).
      exists h', i0, ths, (snd (mstep m (named (e_idt s) c))). repeat (split; [assumption|]).
      pose proof (mr_call n m (named (e_idt s) c) H5) as K. destruct c; exact K.
  Qed.

  Lemma catalogue_lemma I n s m c out s' : ereach I n s -> represents s m -> known_call (e_idt s) c -> estep I s c = (out, s') ->
    agrees (e_idt s') out (fst (mstep m (named (e_idt s) c))) /\ represents s' (snd (mstep m (named (e_idt s) c))).
  Proof.
    intros Hr Rm Hk Es. destruct (ereach_inv I n s Hr) as (h & i0 & ths & _ & H1 & H2 & H3 & _).
    destruct (engine_sim HX HG HL HF HE I i0 ths H1 H2 h s m c out s' H3 Rm Hk Es) as (h' & K1 & K2 & K3). auto.
  Qed.
  Lemma catalogue_reached I n s : ereach I n s -> exists m, represents s m /\ mreach n m.
  Proof. intros Hr. destruct (ereach_inv I n s Hr) as (h & i0 & ths & m & _ & _ & _ & H4 & H5). eauto. Qed.
End Boot.
