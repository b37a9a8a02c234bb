(** Serial equivalence and rollback. *)

From Verif Require Import ModelStore SpecStore LemmasBase LemmasTree LemmasStore LemmasWorld LemmasHistory.

Definition locks (sh : shared) : shared :=
  {| sh_heap := sh_heap sh; sh_tree := sh_tree sh; sh_locked := true; sh_idt := sh_idt sh |}.

Section Serial.
  Context {X : FloatLib} {L : CaseLib} {G : GobLib}.

  Lemma run_length ops : forall w outs w', run w ops = (outs, w') -> length outs = length ops.
  Proof.
    induction ops as [|o ops IH]; intros w outs w' E; simpl in E.
    - now injection E as <- _.
    - destruct (step w o) as [out w1]. destruct (run w1 ops) as [outs2 w2] eqn:E2.
      injection E as <- _. simpl. f_equal. eapply IH; exact E2.
  Qed.

  Lemma run_app ops1 ops2 : forall w, run w (ops1 ++ ops2) =
    (fst (run w ops1) ++ fst (run (snd (run w ops1)) ops2), snd (run (snd (run w ops1)) ops2)).
  Proof.
    induction ops1 as [|o ops IH]; intros w; simpl.
    - now destruct (run w ops2).
    - destruct (step w o) as [out w1]. rewrite IH. destruct (run w1 ops) as [outs2 w2] eqn:E2. simpl.
      now destruct (run w2 ops2).
  Qed.

  Lemma combine_app {A B} (a a' : list A) (b b' : list B) :
    length a = length b -> combine (a ++ a') (b ++ b') = combine a b ++ combine a' b'.
  Proof.
    revert b. induction a as [|x a IH]; intros [|y b] E; simpl in *; try discriminate; [reflexivity|].
    f_equal. apply IH. now injection E.
  Qed.

  (** C20 *)
  Lemma same_but_run x ops : forall w1 w2, wok w1 -> wok w2 -> same_but x w1 w2 ->
    Forall (fun o => ~ names_tx x o) ops ->
    fst (run w1 ops) = fst (run w2 ops) /\ committed (snd (run w1 ops)) = committed (snd (run w2 ops)).
  Proof.
    induction ops as [|o ops IH]; intros w1 w2 K1 K2 S F; simpl.
    - split; [reflexivity|]. apply S.
    - inversion F as [|o' ops' F1 F2]; subst. destruct (step w1 o) as [out w1'] eqn:E1.
      destruct (same_but_step x w1 w2 o out w1' K1 K2 S F1 E1) as (w2' & E2 & S'). rewrite E2.
      pose proof (wok_step _ _ _ _ K1 (step_cases _ _ _ _ K1 E1)) as K1'.
      pose proof (wok_step _ _ _ _ K2 (step_cases _ _ _ _ K2 E2)) as K2'.
      destruct (IH w1' w2' K1' K2' S' F2) as [H1 H2].
      destruct (run w1' ops) as [outs1 wa]. destruct (run w2' ops) as [outs2 wb]. simpl in *.
      split; [now rewrite H1|exact H2].
  Qed.

  Record body_inv (x : nat) (w0 w : world) : Prop := {
    bi_ok : wok w;
    bi_active : active w x;
    bi_committed : committed w = committed w0;
    bi_other : forall y, y <> x -> find_tx (w_txs w) y = find_tx (w_txs w0) y;
    bi_idt : interns (sh_idt (w_sh w0)) (sh_idt (w_sh w))
  }.

  Lemma sees_absS_idt sh tx t : v_idt (absS (sh, tx) t) = sh_idt sh.
  Proof. reflexivity. Qed.

  Lemma body_step x w0 w o out w' : body_inv x w0 w -> step w o = (out, w') ->
    body_inv x w0 w' \/ completed w' x.
  Proof.
    intros [K (tx0 & F0 & L0) C O I] E. apply step_cases in E; [|exact K].
    pose proof (wok_step _ _ _ _ K E) as K'. pose proof (committed_Some w K) as Hc.
    destruct E as [y U F|y U F|y tx U|y c0 U|y c0 tx out U D Od|y c0 tx t out sh' tx' t' Hf Hs Hv N1 N2 Ev Hs' SF
      |y c0 tx t Hf Hs Hv Hc0 C0|y c0 tx t h n Hf Hs Hv C0 Ht Hc0|s q];
      try (left; constructor; [assumption|now exists tx0|assumption|assumption|assumption]).
    - exfalso. rewrite (wk_free w K F x tx0 F0) in L0. discriminate.
    - pose proof (live_unique w x tx0 y tx K F0 L0 Hf (sees_live _ _ Hs)) as ->.
      left. constructor; [assumption| | | |]; simpl.
      + exists tx'. simpl. rewrite find_set, Nat.eqb_refl, Hf. split; [reflexivity|exact (sees_live _ _ Hs')].
      + rewrite <- C. apply committed_eq. simpl. destruct SF as (-> & _ & ->). exact Hc.
      + intros y Ny. rewrite find_set. destruct (x =? y)%nat eqn:Ey; [apply Nat.eqb_eq in Ey; congruence|auto].
      + eapply interns_trans; [exact I|]. apply vstep_interns in Ev. exact Ev.
    - pose proof (live_unique w x tx0 y tx K F0 L0 Hf (sees_live _ _ Hs)) as ->.
      right. exists (kills tx). simpl. rewrite find_set, Nat.eqb_refl, Hf. split; reflexivity.
    - left. constructor; [assumption|now exists tx0|exact C|exact O|].
      simpl. eapply interns_trans; [exact I|]. eapply interns_step. constructor.
  Qed.

  Lemma body_run x w0 ops : forall w outs w', reachable w -> body_inv x w0 w -> run w ops = (outs, w') ->
    body_inv x w0 w' \/ completed w' x.
  Proof.
    induction ops as [|o ops IH]; intros w outs w' R B E; simpl in E.
    - injection E as _ <-. now left.
    - destruct (step w o) as [out w1] eqn:E1. destruct (run w1 ops) as [outs2 w2] eqn:E2.
      injection E as _ <-. pose proof (reachable_step _ _ _ _ R E1) as R1.
      destruct (body_step _ _ _ _ _ _ B E1) as [B1|C1]; [eauto|].
      right. eapply completed_run; eassumption.
  Qed.

  Lemma reachable_run w ops outs w' : reachable w -> run w ops = (outs, w') -> reachable w'.
  Proof.
    revert w outs. induction ops as [|o ops IH]; intros w outs R E; simpl in E.
    - now injection E as _ <-.
    - destruct (step w o) as [out w1] eqn:E1. destruct (run w1 ops) as [outs2 w2] eqn:E2.
      injection E as _ <-. eapply IH; [eapply reachable_step; eassumption|exact E2].
  Qed.

  Lemma rollback_no_trace w x w1 body outs w2 w3 :
    reachable w -> step w (Begin x) = (ODone, w1) -> run w1 body = (outs, w2) ->
    step w2 (Call x CRollback) = (ODone, w3) ->
    committed w3 = committed w /\
    exists ids, Forall is_intern ids /\
      forall ops, Forall (fun o => ~ names_tx x o) ops ->
        fst (run w3 ops) = fst (run (snd (run w ids)) ops) /\
        committed (snd (run w3 ops)) = committed (snd (run (snd (run w ids)) ops)).
  Proof.
    intros R Eb Er Ec. pose proof (reachable_wok w R) as K.
    pose proof (reachable_step _ _ _ _ R Eb) as R1. pose proof (reachable_run _ _ _ _ R1 Er) as R2.
    pose proof (reachable_step _ _ _ _ R2 Ec) as R3.
    pose proof (begin_view w x w1 R Eb) as (_ & Cb & _).
    pose proof (begin_active w x w1 R Eb) as Ab.
    assert (sh_locked (w_sh w) = false /\ body_inv x w w1) as [Fr B1].
    { apply step_cases in Eb; [|exact K]. inversion Eb as [x' U F| | | | | | | |]; subst.
      split; [exact F|]. constructor; [now apply reachable_wok|exact Ab|exact Cb| |constructor].
      intros y Ny. simpl. rewrite find_app. destruct (find_tx (w_txs w) y); [reflexivity|].
      destruct (x =? y)%nat eqn:Ey; [apply Nat.eqb_eq in Ey; congruence|reflexivity]. }
    destruct (body_run x w body w1 outs w2 R1 B1 Er) as [B2|C2].
    2:{ pose proof (completed_call w2 x CRollback ODone w3 R2 C2 Ec) as [_ ?]. discriminate. }
    destruct B2 as [K2 A2 C2 O2 I2].
    assert (committed w3 = committed w /\ sh_locked (w_sh w3) = false /\
      sh_idt (w_sh w3) = sh_idt (w_sh w2) /\
      forall y, y <> x -> find_tx (w_txs w3) y = find_tx (w_txs w2) y) as (C3 & F3 & I3 & O3).
    { pose proof (committed_Some w2 K2) as Hc. apply step_cases in Ec; [|exact K2].
      inversion Ec as [|  | | |x1 c1 tx1 out1 U D O|x1 c1 tx1 t1 out1 sh1 tx1' t1' Hf Hs Hv N1 N2 Ev Hs' SF
      | |x1 c1 tx1 t1 h1 n1 Hf Hs Hv C0 Ht Hc0|]; subst.
      - simpl in O. discriminate.
      - congruence.
      - destruct Hc0 as [[? _]|[_ ->]]; [discriminate|]. split; [rewrite <- C2; now apply committed_eq|].
        split; [reflexivity|]. split; [reflexivity|]. intros y Ny. simpl. rewrite find_set.
        destruct (x =? y)%nat eqn:Ey; [apply Nat.eqb_eq in Ey; congruence|reflexivity]. }
    split; [exact C3|].
    rewrite <- I3 in I2. destruct (run_interns _ _ I2 w eq_refl) as (ids & outs' & Hi & Hr & _).
    exists ids. split; [exact Hi|]. rewrite Hr. simpl snd.
    pose proof (reachable_wok _ R3) as K3.
    assert (wok (with_idt w (sh_idt (w_sh w3)))) as Kw.
    { pose proof (wok_run _ _ _ _ K Hr) as H. exact H. }
    intros ops Fo. apply (same_but_run x); try assumption. constructor; simpl.
    - now rewrite F3, Fr.
    - reflexivity.
    - rewrite C3. reflexivity.
    - intros y Ny. rewrite O3 by exact Ny. rewrite O2 by exact Ny.
      destruct (find_tx (w_txs w) y) as [ty|] eqn:Fy; [|exact I]. simpl.
      repeat (split; [reflexivity|]). rewrite (wk_free w K Fr y ty Fy). discriminate.
  Qed.

  (** C18 *)
  Lemma completed_never_commits ops : forall w outs w' x, reachable w -> run w ops = (outs, w') ->
    completed w x -> commits x (combine ops outs) = false.
  Proof.
    induction ops as [|o ops IH]; intros w outs w' x R E C; simpl in E.
    - injection E as <- _. reflexivity.
    - destruct (step w o) as [out w1] eqn:E1. destruct (run w1 ops) as [outs2 w2] eqn:E2.
      injection E as <- _. pose proof (reachable_step _ _ _ _ R E1) as R1.
      assert (completed w1 x) as C1.
      { eapply completed_step; [apply reachable_wok; exact R| |exact C]. apply step_cases; [now apply reachable_wok|exact E1]. }
      specialize (IH w1 outs2 w2 x R1 E2 C1). simpl.
      destruct o as [y|y c|s q]; try exact IH. destruct c; try exact IH. destruct out; try exact IH.
      destruct (y =? x)%nat eqn:Ey; [|exact IH]. apply Nat.eqb_eq in Ey. subst y.
      pose proof (completed_call w x CCommit ODone w1 R C E1) as [_ ?]. discriminate.
  Qed.

  Lemma commits_skip x o out h : (forall y, o = Call y CCommit -> out <> ODone) ->
    commits x ((o, out) :: h) = commits x h.
  Proof.
    intros H. simpl. destruct o as [y|y c|s q]; try reflexivity. destruct c; try reflexivity.
    destruct out; try reflexivity. exfalso. now apply (H y).
  Qed.

  (** What remains of a call in the committed part. *)
  Lemma part_drop x c out h : commits x ((Call x c, out) :: h) = false ->
    committed_part ((Call x c, out) :: h) = committed_part h.
  Proof. intros H. cbn [committed_part]. rewrite H. destruct out; reflexivity. Qed.

  Lemma part_keep x c out h : commits x ((Call x c, out) :: h) = true -> out <> OBlocked -> out <> ONoObject ->
    committed_part ((Call x c, out) :: h) = (Call x c, out) :: committed_part h.
  Proof. intros H N1 N2. cbn [committed_part]. rewrite H. destruct out; congruence. Qed.

  Lemma vstep_out v c out v' : vstep v c = (out, v') -> out <> OBlocked /\ (out = ONoObject -> v' = v).
  Proof.
    assert (forall A (f : vtx -> A -> outcome * vtx) (m : V A),
      (forall u a, fst (f u a) <> OBlocked /\ fst (f u a) <> ONoObject) ->
      vrun f m v = (out, v') -> out <> OBlocked /\ (out = ONoObject -> v' = v)) as Hrun.
    { intros A f m Hf E. unfold vrun in E. destruct (m (v_tree v, v_idt v)) as [r s'].
      destruct r as [a|e|]; simpl in E.
      - specialize (Hf (v_with v s') a). rewrite E in Hf. simpl in Hf. tauto.
      - injection E as <- _. split; discriminate.
      - injection E as <- _. split; discriminate. }
    intros E.
    destruct c as [tid tn cn ct p|tid tn cn ct p|tid| | | |i|i cols mn mx p|i rs|i|i|i|i cols vals|i]; simpl in E;
      try (injection E as <- <-; split; discriminate).
    - eapply Hrun in E; [exact E|]. intros u a. split; discriminate.
    - eapply Hrun in E; [exact E|]. intros u a. split; discriminate.
    - eapply Hrun in E; [exact E|]. intros u a. split; discriminate.
    - destruct (nth_error _ _); injection E as <- <-; split; try discriminate. reflexivity.
    - destruct (nth_error _ _) as [tbl|]; [|injection E as <- <-; split; [discriminate|reflexivity]].
      eapply Hrun in E; [exact E|]. intros u a. split; discriminate.
    - destruct (nth_error _ _) as [tbl|]; [|injection E as <- <-; split; [discriminate|reflexivity]].
      eapply Hrun in E; [exact E|]. intros u a. split; discriminate.
    - destruct (nth_error _ _) as [rs|]; [|injection E as <- <-; split; [discriminate|reflexivity]].
      destruct (_ <? _); [injection E as <- <-; split; discriminate|].
      destruct (_ =? _); [injection E as <- <-; split; discriminate|].
      destruct (znth _ _) as [it|]; [|injection E as <- <-; split; discriminate].
      injection E as <- _. clear Hrun. destruct (rs_cols rs) as [cs|]; [destruct (projectRow cs (it_row it))|]; split; discriminate.
    - destruct (nth_error _ _) as [rs|]; [|injection E as <- <-; split; [discriminate|reflexivity]].
      destruct (_ <=? _); [injection E as <- <-; split; discriminate|].
      destruct (znth _ _); injection E as <- <-; split; discriminate.
    - destruct (nth_error _ _) as [rs|]; [|injection E as <- <-; split; [discriminate|reflexivity]].
      destruct (_ <? _); injection E as <- <-; split; discriminate.
    - destruct (nth_error _ _) as [rr|]; [|injection E as <- <-; split; [discriminate|reflexivity]].
      destruct (nth_error _ _) as [tbl|]; [|injection E as <- <-; split; [discriminate|reflexivity]].
      eapply Hrun in E; [exact E|]. intros u a. split; discriminate.
    - destruct (nth_error _ _) as [rr|]; [|injection E as <- <-; split; [discriminate|reflexivity]].
      destruct (nth_error _ _) as [tbl|]; [|injection E as <- <-; split; [discriminate|reflexivity]].
      eapply Hrun in E; [exact E|]. intros u a. split; discriminate.
  Qed.

  Record sim (w w' : world) (h : history) : Prop := {
    sm_ok : wok w';
    sm_committed : committed w' = committed w;
    sm_idt : sh_idt (w_sh w') = sh_idt (w_sh w);
    sm_names : forall y, unused w y -> unused w' y;
    sm_live : forall x tx t, find_tx (w_txs w) x = Some tx -> sees (w_sh w, tx) t -> commits x h = true ->
      exists tx', find_tx (w_txs w') x = Some tx' /\ sees (w_sh w', tx') t /\
                  absS (w_sh w', tx') t = absS (w_sh w, tx) t;
    sm_free : (forall x, active w x -> commits x h = false) -> sh_locked (w_sh w') = false
  }.

  (** Skipping an operation that changes nothing. *)
  Lemma sim_skip w w' o out h : sim w w' ((o, out) :: h) -> (forall y, o = Call y CCommit -> out <> ODone) ->
    sim w w' h.
  Proof.
    intros [S1 S2 S3 S4 S5 S6] H. constructor; try assumption.
    - intros x tx t F Hs Hc. apply (S5 x tx t F Hs). now rewrite commits_skip.
    - intros Hf. apply S6. intros x A. rewrite commits_skip by exact H. auto.
  Qed.

  Lemma sim_active w w' h x tx t :
    reachable w -> sim w w' h -> find_tx (w_txs w) x = Some tx -> sees (w_sh w, tx) t -> commits x h = false ->
    sh_locked (w_sh w') = false.
  Proof.
    intros R S F Hs Hc. apply (sm_free _ _ _ S). intros y (ty & Fy & Ly).
    rewrite (live_unique w x tx y ty (reachable_wok w R) F (sees_live _ _ Hs) Fy Ly). exact Hc.
  Qed.

  Lemma serial_main ops : forall w outs wf w', reachable w -> run w ops = (outs, wf) ->
    sim w w' (combine ops outs) ->
    exists ops' outs' wf', run w' ops' = (outs', wf') /\
      without_interns (combine ops' outs') = committed_part (combine ops outs) /\
      committed wf' = committed wf.
  Proof.
    induction ops as [|o ops IH]; intros w outs wf w' R E S.
    { simpl in E. injection E as <- <-. exists [], [], w'. repeat split. apply S. }
    simpl in E. destruct (step w o) as [out w1] eqn:E1. destruct (run w1 ops) as [outs2 w2] eqn:E2.
    injection E as <- <-. pose proof (reachable_step _ _ _ _ R E1) as R1.
    pose proof (reachable_wok w R) as K. pose proof (reachable_wok w1 R1) as K1.
    pose proof (completed_never_commits ops w1 outs2 w2) as Hnc.
    cbn [combine] in *. set (h := combine ops outs2) in *.
    apply step_cases in E1; [|exact K]. specialize (IH w1 outs2 w2).
    (* the two ways to go on *)
    assert (forall wm, sim w1 wm h -> committed_part ((o, out) :: h) = committed_part h ->
      (exists ids outsi, Forall is_intern ids /\ run w' ids = (outsi, wm)) ->
      exists ops' outs' wf', run w' ops' = (outs', wf') /\
        without_interns (combine ops' outs') = committed_part ((o, out) :: h) /\ committed wf' = committed w2) as Skip.
    { intros wm Sm Ep (ids & outsi & Hi & Hr).
      destruct (IH wm R1 E2 Sm) as (ops' & outs' & wf' & Hr' & Hp & Hc).
      exists (ids ++ ops'), (outsi ++ outs'), wf'. split; [rewrite run_app, Hr; simpl; now rewrite Hr'|].
      split; [|exact Hc].
      rewrite combine_app by (symmetry; eapply run_length; exact Hr).
      unfold without_interns in *. rewrite filter_app, Hp, Ep.
      rewrite filter_all_false; [reflexivity|]. intros [o' out'] Hin. apply in_combine_l in Hin.
      rewrite Forall_forall in Hi. destruct (Hi _ Hin) as (s & q & ->). reflexivity. }
    assert (forall wm, sim w1 wm h -> committed_part ((o, out) :: h) = (o, out) :: committed_part h ->
      (forall s q, o <> Intern s q) -> step w' o = (out, wm) ->
      exists ops' outs' wf', run w' ops' = (outs', wf') /\
        without_interns (combine ops' outs') = committed_part ((o, out) :: h) /\ committed wf' = committed w2) as Keep.
    { intros wm Sm Ep No Hr.
      destruct (IH wm R1 E2 Sm) as (ops' & outs' & wf' & Hr' & Hp & Hc).
      exists (o :: ops'), (out :: outs'), wf'. split; [simpl; now rewrite Hr, Hr'|]. split; [|exact Hc].
      rewrite Ep. unfold without_interns in *. cbn [combine filter fst].
      destruct o as [x|x c|s q]; [now rewrite Hp|now rewrite Hp|exfalso; now apply (No s q)]. }
    assert (exists ids outsi, Forall is_intern ids /\ run w' ids = (outsi, w')) as Nothing.
    { exists [], []. split; [constructor|reflexivity]. }
    pose proof (committed_Some w K) as Hcw. pose proof (committed_Some w' (sm_ok _ _ _ S)) as Hcw'.
    pose proof (sm_ok _ _ _ S) as K'.
    destruct E1 as [y U F|y U F|y tx U|y c0 U|y c0 tx out U D Od|y c0 tx t out sh' tx' t' Hf Hs Hv N1 N2 Ev Hs' SF
      |y c0 tx t Hf Hs Hv Hc0 C0|y c0 tx t hh n Hf Hs Hv C0 Ht Hc0|s q].
    - (* Begin *)
      pose proof (sim_skip _ _ _ _ _ S) as S'. specialize (S' ltac:(discriminate)).
      assert (forall x, ~ active w x) as NA.
      { intros x (tx & Fx & Lx). rewrite (wk_free w K F x tx Fx) in Lx. discriminate. }
      assert (sh_locked (w_sh w') = false) as Fr.
      { apply (sm_free _ _ _ S). intros x A. now apply NA in A. }
      assert (forall x, active {| w_sh := locks (w_sh w); w_txs := w_txs w ++ [(y, newTx (w_sh w))] |} x -> x = y) as Only.
      { intros x (tx & Fx & Lx). simpl in Fx. rewrite find_app in Fx.
        destruct (find_tx (w_txs w) x) as [tx1|] eqn:Fx1.
        - exfalso. apply (NA x). exists tx1. split; [exact Fx1|congruence].
        - destruct (y =? x)%nat eqn:Ey; [|discriminate]. symmetry. now apply Nat.eqb_eq. }
      destruct (commits y h) eqn:Cy.
      + pose proof (sm_names _ _ _ S y U) as U'. unfold unused in U'.
        eapply Keep.
        4:{ simpl. rewrite U', Fr. reflexivity. }
        * constructor; simpl.
          -- exact (wok_step w' (Begin y) ODone _ K' (WBegin w' y U' Fr)).
          -- exact (sm_committed _ _ _ S).
          -- exact (sm_idt _ _ _ S).
          -- intros z. unfold unused. simpl. rewrite !find_app.
             destruct (find_tx (w_txs w) z) eqn:Fz; [discriminate|].
             pose proof (sm_names _ _ _ S z Fz) as Hz. unfold unused in Hz. rewrite Hz. destruct (y =? z)%nat; [discriminate|reflexivity].
          -- intros x tx t Fx Hsx _. assert (x = y) as ->.
             { apply Only. exists tx. split; [exact Fx|exact (sees_live _ _ Hsx)]. }
             unfold unused in U. rewrite find_app, U, Nat.eqb_refl in Fx. injection Fx as <-.
             exists (newTx (w_sh w')). rewrite find_app, U', Nat.eqb_refl. split; [reflexivity|].
             assert (t = committed w) as ->.
             { destruct Hsx as (_ & (h1 & Hh1 & Ht1) & _). simpl in Hh1, Ht1. injection Hh1 as <-. congruence. }
             split.
             ++ split; [reflexivity|]. simpl. rewrite <- (sm_committed _ _ _ S). split; eauto.
             ++ unfold absS. simpl. now rewrite (sm_idt _ _ _ S).
          -- intros H. exfalso. rewrite H in Cy; [discriminate|]. exists (newTx (w_sh w)). simpl.
             unfold unused in U. rewrite find_app, U, Nat.eqb_refl. split; reflexivity.
        * cbn [committed_part commits]. now rewrite Cy.
        * discriminate.
      + eapply (Skip w'); [|cbn [committed_part commits]; now rewrite Cy|exact Nothing].
        destruct S' as [T1 T2 T3 T4 T5 T6]. constructor; simpl; try assumption.
        * intros z. unfold unused. simpl. rewrite find_app. destruct (find_tx (w_txs w) z) eqn:Fz; [discriminate|].
          intros _. now apply T4.
        * intros x tx t Fx Hsx Cx. exfalso. assert (x = y) as ->; [|congruence].
          apply Only. exists tx. split; [exact Fx|exact (sees_live _ _ Hsx)].
        * intros _. exact Fr.
    - (* blocked *)
      apply (Skip w'); [|reflexivity|exact Nothing]. apply (sim_skip _ _ _ _ _ S). discriminate.
    - apply (Skip w'); [|reflexivity|exact Nothing]. apply (sim_skip _ _ _ _ _ S). discriminate.
    - apply (Skip w'); [|reflexivity|exact Nothing]. apply (sim_skip _ _ _ _ _ S). discriminate.
    - (* completed *)
      assert (commits y h = false) as Cy.
      { apply Hnc; [exact R1|exact E2|]. exists tx. split; [exact U|]. apply D. }
      assert (forall z, Call y c0 = Call z CCommit -> out <> ODone) as Nc.
      { intros z [= -> ->]. simpl in Od. subst out. discriminate. }
      apply (Skip w'); [|apply part_drop; now rewrite commits_skip|exact Nothing].
      apply (sim_skip _ _ _ _ _ S Nc).
    - (* a call *)
      assert (forall z, Call y c0 = Call z CCommit -> out <> ODone) as Nc by (intros z [= -> ->]; congruence).
      pose proof (sim_skip _ _ _ _ _ S Nc) as S'.
      pose proof (vstep_out _ _ _ _ Ev) as [Nb Nn].
      pose proof (sees_live _ _ Hs) as Ly. simpl in Ly.
      assert (forall x, active {| w_sh := sh'; w_txs := set_tx (w_txs w) y tx' |} x -> x = y) as Only.
      { intros x (tx1 & Fx & Lx). simpl in Fx. rewrite find_set, Hf in Fx.
        destruct (y =? x)%nat eqn:Ey; [apply Nat.eqb_eq in Ey; congruence|].
        exact (live_unique w y tx x tx1 K Hf Ly Fx Lx). }
      assert (active {| w_sh := sh'; w_txs := set_tx (w_txs w) y tx' |} y) as Ay.
      { exists tx'. simpl. rewrite find_set, Hf, Nat.eqb_refl. split; [reflexivity|exact (sees_live _ _ Hs')]. }
      assert (forall z, unused {| w_sh := sh'; w_txs := set_tx (w_txs w) y tx' |} z -> unused w z) as Un.
      { intros z. unfold unused. simpl. rewrite find_set, Hf. destruct (y =? z)%nat; [discriminate|auto]. }
      assert (committed {| w_sh := sh'; w_txs := set_tx (w_txs w) y tx' |} = committed w) as Hcc.
      { apply committed_eq. simpl. destruct SF as (-> & _ & ->). exact Hcw. }
      assert (find_tx (set_tx (w_txs w) y tx') y = Some tx') as Fy'.
      { rewrite find_set, Hf, Nat.eqb_refl. reflexivity. }
      destruct (commits y h) eqn:Cy.
      + destruct (sm_live _ _ _ S' y tx t Hf Hs Cy) as (ty & Fy & Hsy & EA).
        assert (out = ONoObject \/ out <> ONoObject) as [-> | No].
        { destruct out; auto; right; discriminate. }
        * (* nothing happened *)
          apply (Skip w'); [|reflexivity|exact Nothing].
          specialize (Nn eq_refl). pose proof (absS_fields _ _ _ _ Nn) as (B1 & B2 & _). simpl in B2. subst t'.
          constructor; simpl.
          -- exact K'.
          -- rewrite Hcc. apply S'.
          -- rewrite B2. apply S'.
          -- intros z Hz. apply S'. now apply Un.
          -- intros x tx1 t1 Fx Hsx Cx. assert (x = y) as ->.
             { apply Only. exists tx1. split; [exact Fx|exact (sees_live _ _ Hsx)]. }
             rewrite Fy' in Fx. injection Fx as <-. pose proof (sees_inj _ _ _ Hs' Hsx) as <-.
             exists ty. split; [exact Fy|]. split; [exact Hsy|]. now rewrite EA.
          -- intros H. rewrite (H y Ay) in Cy. discriminate.
        * destruct (step w' (Call y c0)) as [out2 wm] eqn:Est.
          pose proof Est as Ew. apply step_cases in Ew; [|exact K'].
          inversion Ew as [|  | |x1 c1 U1|x1 c1 tx1 out1 U1 D1 O1|x1 c1 tx1 t1 out1 sh1 tx1' t1' Hf1 Hsee1 Hv1 N11 N21 Ev1 Hs1' SF1
            |x1 c1 tx1 t1 Hf1 Hsee1 Hv1 Hc1 C11|x1 c1 tx1 t1 h1 n1 Hf1 Hsee1 Hv1 C11 Ht1 Hc1|]; subst.
          -- unfold unused in U1. congruence.
          -- destruct D1 as (D1 & _). assert (tx1 = ty) as -> by congruence. pose proof (sees_live _ _ Hsy) as H; simpl in H; congruence.
          -- assert (tx1 = ty) as -> by congruence. pose proof (sees_inj _ _ _ Hsee1 Hsy) as ->.
             rewrite EA, Ev in Ev1. pose proof (f_equal fst Ev1) as Eo. pose proof (f_equal snd Ev1) as EA'.
             cbn [fst snd] in Eo, EA'. subst out2.
             pose proof (absS_fields _ _ _ _ EA') as (B1 & B2 & _). simpl in B2. subst t1'.
             eapply Keep; [|apply part_keep; [rewrite commits_skip; assumption|exact Nb|exact No]|discriminate|first [exact Est|reflexivity]].
             constructor; simpl.
             ++ eapply wok_step; [exact K'|exact Ew].
             ++ rewrite Hcc. rewrite <- (sm_committed _ _ _ S). apply committed_eq. simpl.
                destruct SF1 as (-> & _ & ->). exact Hcw'.
             ++ now symmetry.
             ++ intros z Hz. apply Un in Hz. apply (sm_names _ _ _ S) in Hz. unfold unused in *. simpl.
                rewrite find_set, Fy. destruct (y =? z)%nat eqn:Ez; [|exact Hz].
                apply Nat.eqb_eq in Ez. congruence.
             ++ intros x tx1 t1 Fx Hsx Cx. assert (x = y) as ->.
                { apply Only. exists tx1. split; [exact Fx|exact (sees_live _ _ Hsx)]. }
                rewrite Fy' in Fx. injection Fx as <-. pose proof (sees_inj _ _ _ Hs' Hsx) as <-.
                exists tx1'. rewrite find_set, Fy, Nat.eqb_refl. split; [reflexivity|]. split; [exact Hs1'|].
                now rewrite EA'.
             ++ intros H. rewrite (H y Ay) in Cy. discriminate.
          -- destruct Hc1; congruence.
          -- destruct Hc1 as [[? _]|[? _]]; congruence.
      + pose proof (sim_active _ _ _ _ _ _ R S' Hf Hs Cy) as Fr.
        assert (interns (sh_idt (w_sh w')) (sh_idt sh')) as Hin.
        { rewrite (sm_idt _ _ _ S). apply vstep_interns in Ev. exact Ev. }
        destruct (run_interns _ _ Hin w' eq_refl) as (ids & outsi & Hi & Hr & _).
        apply (Skip (with_idt w' (sh_idt sh'))); [|apply part_drop; now rewrite commits_skip|eauto].
        constructor; simpl.
        * eapply wok_run; [exact K'|exact Hr].
        * rewrite Hcc, <- (sm_committed _ _ _ S). reflexivity.
        * reflexivity.
        * intros z Hz. apply (sm_names _ _ _ S). now apply Un.
        * intros x tx1 t1 Fx Hsx Cx. exfalso. assert (x = y) as ->; [|congruence].
          apply Only. exists tx1. split; [exact Fx|exact (sees_live _ _ Hsx)].
        * intros _. exact Fr.
    - (* busy *)
      assert (forall z, Call y c0 = Call z CCommit -> OPanic <> ODone) as Nc by discriminate.
      pose proof (sim_skip _ _ _ _ _ S Nc) as S'.
      destruct (commits y h) eqn:Cy.
      + destruct (sm_live _ _ _ S' y tx t Hf Hs Cy) as (ty & Fy & Hsy & EA).
        pose proof (absS_fields _ _ _ _ EA) as (_ & _ & B3 & _). simpl in B3.
        destruct (step w' (Call y c0)) as [out2 wm] eqn:Est.
        pose proof Est as Ew. apply step_cases in Ew; [|exact K'].
        inversion Ew as [|  | |x1 c1 U1|x1 c1 tx1 out1 U1 D1 O1|x1 c1 tx1 t1 out1 sh1 tx1' t1' Hf1 Hsee1 Hv1 N11 N21 Ev1 Hs1' SF1
          |x1 c1 tx1 t1 Hf1 Hsee1 Hv1 Hc1 C11|x1 c1 tx1 t1 h1 n1 Hf1 Hsee1 Hv1 C11 Ht1 Hc1|]; subst.
        * unfold unused in U1. congruence.
        * destruct D1 as (D1 & _). assert (tx1 = ty) as -> by congruence. pose proof (sees_live _ _ Hsy) as H; simpl in H; congruence.
        * destruct Hc0; congruence.
        * apply (Keep wm); [exact S'|apply part_keep; [rewrite commits_skip; assumption|discriminate|discriminate]|discriminate|first [exact Est|reflexivity]].
        * exfalso. apply C0. congruence.
      + apply (Skip w'); [exact S'|apply part_drop; now rewrite commits_skip|exact Nothing].
    - (* completion *)
      pose proof (sees_live _ _ Hs) as Ly. simpl in Ly.
      assert (forall x, ~ active {| w_sh := unlock (w_sh w) n; w_txs := set_tx (w_txs w) y (kills tx) |} x) as NA.
      { intros x (tx1 & Fx & Lx). simpl in Fx. rewrite find_set, Hf in Fx.
        destruct (y =? x)%nat eqn:Ey; [injection Fx as <-; discriminate|].
        apply Nat.eqb_neq in Ey. apply Ey. symmetry. exact (live_unique w y tx x tx1 K Hf Ly Fx Lx). }
      assert (forall z, unused {| w_sh := unlock (w_sh w) n; w_txs := set_tx (w_txs w) y (kills tx) |} z -> unused w z) as Un.
      { intros z. unfold unused. simpl. rewrite find_set, Hf. destruct (y =? z)%nat; [discriminate|auto]. }
      pose proof Hs as (_ & (h0 & Hh0 & Ht0) & _). simpl in Hh0, Ht0. assert (h0 = hh) as -> by congruence.
      destruct Hc0 as [[-> ->]|[-> ->]].
      + assert (commits y ((Call y CCommit, ODone) :: h) = true) as Cy by (simpl; now rewrite Nat.eqb_refl).
        destruct (sm_live _ _ _ S y tx t Hf Hs Cy) as (ty & Fy & Hsy & EA).
        pose proof (absS_fields _ _ _ _ EA) as (_ & _ & B3 & _). simpl in B3.
        destruct (step w' (Call y CCommit)) as [out2 wm] eqn:Est.
        pose proof Est as Ew. apply step_cases in Ew; [|exact K'].
        inversion Ew as [|  | |x1 c1 U1|x1 c1 tx1 out1 U1 D1 O1|x1 c1 tx1 t1 out1 sh1 tx1' t1' Hf1 Hsee1 Hv1 N11 N21 Ev1 Hs1' SF1
          |x1 c1 tx1 t1 Hf1 Hsee1 Hv1 Hc1 C11|x1 c1 tx1 t1 h1 n1 Hf1 Hsee1 Hv1 C11 Ht1 Hc1|]; subst.
        * unfold unused in U1. congruence.
        * destruct D1 as (D1 & _). assert (tx1 = ty) as -> by congruence. pose proof (sees_live _ _ Hsy) as H; simpl in H; congruence.
        * congruence.
        * exfalso. apply C11. congruence.
        * assert (tx1 = ty) as -> by congruence. destruct Hc1 as [[_ ->]|[? _]]; [|discriminate].
          pose proof Hsy as (_ & (hb & Hhb & Htb) & _). simpl in Hhb, Htb.
          eapply Keep; [|apply part_keep; [exact Cy|discriminate|discriminate]|discriminate|first [exact Est|reflexivity]].
          constructor; simpl.
          -- eapply wok_step; [exact K'|exact Ew].
          -- rewrite (committed_eq {| w_sh := unlock (w_sh w) _; w_txs := _ |} t) by (simpl; congruence).
             apply committed_eq. simpl. congruence.
          -- apply S.
          -- intros z Hz. apply Un in Hz. apply (sm_names _ _ _ S) in Hz. unfold unused in *. simpl.
             rewrite find_set, Fy. destruct (y =? z)%nat eqn:Ez; [|exact Hz].
             apply Nat.eqb_eq in Ez. congruence.
          -- intros x tx1 t2 Fx Hsx Cx. exfalso. apply (NA x). exists tx1. split; [exact Fx|exact (sees_live _ _ Hsx)].
          -- reflexivity.
      + assert (forall z, Call y CRollback = Call z CCommit -> ODone <> ODone) as Nc by discriminate.
        pose proof (sim_skip _ _ _ _ _ S Nc) as S'.
        assert (commits y h = false) as Cy.
        { apply Hnc; [exact R1|exact E2|]. exists (kills tx). simpl. rewrite find_set, Hf, Nat.eqb_refl. split; reflexivity. }
        pose proof (sim_active _ _ _ _ _ _ R S' Hf Hs Cy) as Fr.
        apply (Skip w'); [|apply part_drop; now rewrite commits_skip|exact Nothing].
        constructor; simpl.
        * exact K'.
        * rewrite (sm_committed _ _ _ S). symmetry. now apply committed_eq.
        * apply S.
        * intros z Hz. apply (sm_names _ _ _ S). now apply Un.
        * intros x tx1 t2 Fx Hsx Cx. exfalso. apply (NA x). exists tx1. split; [exact Fx|exact (sees_live _ _ Hsx)].
        * intros _. exact Fr.
    - (* Intern *)
      pose proof (sim_skip _ _ _ _ _ S ltac:(discriminate)) as S'.
      assert (run w' [Intern s q] = ([ODone], with_idt w' (fst (ID (sh_idt (w_sh w)) s q)))) as Hr.
      { simpl. unfold with_idt. now rewrite (sm_idt _ _ _ S). }
      eapply Skip; [|reflexivity|exists [Intern s q], [ODone]; split; [repeat constructor; now exists s, q|exact Hr]].
      constructor; simpl.
      + eapply wok_run; [exact K'|exact Hr].
      + apply (sm_committed _ _ _ S).
      + reflexivity.
      + intros z Hz. apply (sm_names _ _ _ S). exact Hz.
      + intros x tx t Fx Hsx Cx. destruct (sm_live _ _ _ S' x tx t Fx Hsx Cx) as (tx' & Fx' & Hs' & EA).
        exists tx'. split; [exact Fx'|]. split; [exact Hs'|]. unfold absS in *. simpl in *.
        injection EA as A1 A2 A3 A4 A5. now rewrite A2, A3, A4, A5.
      + intros H. apply (sm_free _ _ _ S'). intros x A. apply H. exact A.
  Qed.

  Lemma serial_equivalent t ops outs w : run (newStore t) ops = (outs, w) ->
    exists ops' outs' w', run (newStore t) ops' = (outs', w') /\
      without_interns (combine ops' outs') = committed_part (combine ops outs) /\
      committed w' = committed w.
  Proof.
    intros E. eapply serial_main; [exists t, [], []; reflexivity|exact E|]. constructor.
    - apply wok_new.
    - reflexivity.
    - reflexivity.
    - auto.
    - intros x tx t0 F. discriminate.
    - reflexivity.
  Qed.

  (** The committed part is serial. *)
  Definition body_of (x : nat) (b : history) : Prop :=
    Forall (fun e => on_tx x (fst e) /\ fst e <> Call x CCommit \/ (fst e = Call x CCommit /\ snd e <> ODone)) b.

  Lemma part_serial ops : forall w outs wf, reachable w -> run w ops = (outs, wf) ->
    (forall x, active w x -> commits x (combine ops outs) = true ->
       exists b h2, committed_part (combine ops outs) = b ++ (Call x CCommit, ODone) :: h2 /\ body_of x b /\ serial h2) /\
    ((forall x, active w x -> commits x (combine ops outs) = false) -> serial (committed_part (combine ops outs))).
  Proof.
    induction ops as [|o ops IH]; intros w outs wf R E.
    { simpl in E. injection E as <- <-. simpl. split; [discriminate|]. intros _. constructor. }
    simpl in E. destruct (step w o) as [out w1] eqn:E1. destruct (run w1 ops) as [outs2 w2] eqn:E2.
    injection E as <- <-. pose proof (reachable_step _ _ _ _ R E1) as R1.
    pose proof (reachable_wok w R) as K. pose proof (reachable_wok w1 R1) as K1.
    pose proof (completed_never_commits ops w1 outs2 w2) as Hnc.
    destruct (IH w1 outs2 w2 R1 E2) as [IH1 IH2].
    cbn [combine] in *. set (h := combine ops outs2) in *.
    apply step_cases in E1; [|exact K].
    assert (w1 = w -> (forall y, o = Call y CCommit -> out <> ODone) ->
            committed_part ((o, out) :: h) = committed_part h ->
      (forall x, active w x -> commits x ((o, out) :: h) = true ->
       exists b h2, committed_part ((o, out) :: h) = b ++ (Call x CCommit, ODone) :: h2 /\ body_of x b /\ serial h2) /\
      ((forall x, active w x -> commits x ((o, out) :: h) = false) -> serial (committed_part ((o, out) :: h)))) as Skip.
    { intros -> Nc Ep. rewrite Ep. split.
      - intros x A. rewrite commits_skip by exact Nc. auto.
      - intros H. apply IH2. intros x A. specialize (H x A). now rewrite commits_skip in H by exact Nc. }
    destruct E1 as [y U F|y U F|y tx U|y c0 U|y c0 tx out U D Od|y c0 tx t out sh' tx' t' Hf Hs Hv N1 N2 Ev Hs' SF
      |y c0 tx t Hf Hs Hv Hc0 C0|y c0 tx t hh n Hf Hs Hv C0 Ht Hc0|s q].
    - assert (forall x, ~ active w x) as NA.
      { intros x (tx & Fx & Lx). rewrite (wk_free w K F x tx Fx) in Lx. discriminate. }
      assert (forall x, active {| w_sh := locks (w_sh w); w_txs := w_txs w ++ [(y, newTx (w_sh w))] |} x -> x = y) as Only.
      { intros x (tx & Fx & Lx). simpl in Fx. rewrite find_app in Fx.
        destruct (find_tx (w_txs w) x) as [tx1|] eqn:Fx1.
        - exfalso. apply (NA x). exists tx1. split; [exact Fx1|congruence].
        - destruct (y =? x)%nat eqn:Ey; [|discriminate]. symmetry. now apply Nat.eqb_eq. }
      split; [intros x A; now apply NA in A|]. intros _. cbn [committed_part commits].
      destruct (commits y h) eqn:Cy.
      + destruct (IH1 y) as (b & h2 & -> & Hb & Hs2); [|exact Cy|].
        * exists (newTx (w_sh w)). simpl. unfold unused in U. rewrite find_app, U, Nat.eqb_refl. split; reflexivity.
        * now apply serial_tx.
      + apply IH2. intros x A. now rewrite (Only x A).
    - apply Skip; [reflexivity|discriminate|reflexivity].
    - apply Skip; [reflexivity|discriminate|reflexivity].
    - apply Skip; [reflexivity|discriminate|reflexivity].
    - assert (commits y h = false) as Cy.
      { apply Hnc; [exact R1|exact E2|]. exists tx. split; [exact U|]. apply D. }
      assert (forall z, Call y c0 = Call z CCommit -> out <> ODone) as Nc.
      { intros z [= -> ->]. simpl in Od. subst out. discriminate. }
      apply Skip; [reflexivity|exact Nc|]. apply part_drop. now rewrite commits_skip.
    - assert (forall z, Call y c0 = Call z CCommit -> out <> ODone) as Nc by (intros z [= -> ->]; congruence).
      pose proof (vstep_out _ _ _ _ Ev) as [Nb Nn].
      pose proof (sees_live _ _ Hs) as Ly. simpl in Ly.
      assert (forall x, active w x -> x = y) as Only.
      { intros x (tx1 & Fx & Lx). exact (live_unique w y tx x tx1 K Hf Ly Fx Lx). }
      assert (forall x, active {| w_sh := sh'; w_txs := set_tx (w_txs w) y tx' |} x -> x = y) as Only'.
      { intros x (tx1 & Fx & Lx). simpl in Fx. rewrite find_set, Hf in Fx.
        destruct (y =? x)%nat eqn:Ey; [apply Nat.eqb_eq in Ey; congruence|].
        exact (live_unique w y tx x tx1 K Hf Ly Fx Lx). }
      assert (active {| w_sh := sh'; w_txs := set_tx (w_txs w) y tx' |} y) as Ay.
      { exists tx'. simpl. rewrite find_set, Hf, Nat.eqb_refl. split; [reflexivity|exact (sees_live _ _ Hs')]. }
      split.
      + intros x A. rewrite (Only x A). rewrite commits_skip by exact Nc. intros Cy.
        destruct (IH1 y Ay Cy) as (b & h2 & Ep & Hb & Hs2).
        assert (out = ONoObject \/ out <> ONoObject) as [-> | No].
        { destruct out; auto; right; discriminate. }
        * exists b, h2. auto.
        * rewrite part_keep by (try rewrite commits_skip; assumption). rewrite Ep.
          exists ((Call y c0, out) :: b), h2. split; [reflexivity|]. split; [|exact Hs2].
          constructor; [|exact Hb]. left. simpl. split; [now exists c0|congruence].
      + intros H. specialize (H y (ex_intro _ tx (conj Hf Ly))). rewrite part_drop by exact H.
        rewrite commits_skip in H by exact Nc. apply IH2. intros x A. now rewrite (Only' x A).
    - assert (forall z, Call y c0 = Call z CCommit -> OPanic <> ODone) as Nc by discriminate.
      pose proof (sees_live _ _ Hs) as Ly. simpl in Ly.
      assert (forall x, active w x -> x = y) as Only.
      { intros x (tx1 & Fx & Lx). exact (live_unique w y tx x tx1 K Hf Ly Fx Lx). }
      split.
      + intros x A. pose proof A as A'. rewrite (Only x A) in *. rewrite commits_skip by exact Nc. intros Cy.
        destruct (IH1 y A' Cy) as (b & h2 & Ep & Hb & Hs2).
        rewrite part_keep by (try rewrite commits_skip; first [assumption|discriminate]). rewrite Ep.
        exists ((Call y c0, OPanic) :: b), h2. split; [reflexivity|]. split; [|exact Hs2].
        constructor; [|exact Hb]. simpl. destruct Hc0 as [-> | ->].
        * right. split; [reflexivity|discriminate].
        * left. split; [now exists CRollback|discriminate].
      + intros H. specialize (H y (ex_intro _ tx (conj Hf Ly))). rewrite part_drop by exact H.
        rewrite commits_skip in H by exact Nc. apply IH2. intros x A. now rewrite (Only x A).
    - pose proof (sees_live _ _ Hs) as Ly. simpl in Ly.
      assert (forall x, active w x -> x = y) as Only.
      { intros x (tx1 & Fx & Lx). exact (live_unique w y tx x tx1 K Hf Ly Fx Lx). }
      assert (forall x, ~ active {| w_sh := unlock (w_sh w) n; w_txs := set_tx (w_txs w) y (kills tx) |} x) as NA.
      { intros x (tx1 & Fx & Lx). simpl in Fx. rewrite find_set, Hf in Fx.
        destruct (y =? x)%nat eqn:Ey; [injection Fx as <-; discriminate|].
        apply Nat.eqb_neq in Ey. apply Ey. symmetry. exact (live_unique w y tx x tx1 K Hf Ly Fx Lx). }
      assert (serial (committed_part h)) as Hser.
      { apply IH2. intros x A. now apply NA in A. }
      assert (commits y h = false) as Cy.
      { apply Hnc; [exact R1|exact E2|]. exists (kills tx). simpl. rewrite find_set, Hf, Nat.eqb_refl. split; reflexivity. }
      destruct Hc0 as [[-> ->]|[-> ->]].
      + assert (commits y ((Call y CCommit, ODone) :: h) = true) as Cy' by (simpl; now rewrite Nat.eqb_refl).
        rewrite part_keep by first [exact Cy'|discriminate]. split.
        * intros x A. rewrite (Only x A). intros _. exists [], (committed_part h).
          split; [reflexivity|]. split; [constructor|exact Hser].
        * intros H. rewrite (H y (ex_intro _ tx (conj Hf Ly))) in Cy'. discriminate.
      + assert (forall z, Call y CRollback = Call z CCommit -> ODone <> ODone) as Nc by discriminate.
        rewrite part_drop by (rewrite commits_skip; assumption). split; [|intros _; exact Hser].
        intros x A. rewrite (Only x A), commits_skip by exact Nc. congruence.
    - split.
      + intros x A Cx. apply (IH1 x); [exact A|exact Cx].
      + intros H. apply IH2. intros x A. apply (H x). exact A.
  Qed.

  Lemma committed_serial t ops outs w : run (newStore t) ops = (outs, w) ->
    serial (committed_part (combine ops outs)).
  Proof.
    intros E. eapply part_serial; [exists t, [], []; reflexivity|exact E|].
    intros x (tx & F & _). discriminate.
  Qed.
End Serial.
