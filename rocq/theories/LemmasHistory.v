(** Histories of the store: isolation, the lock, completion, row sets. *)

From Verif Require Import ModelStore SpecStore LemmasBase LemmasTree LemmasStore LemmasWorld.

Section History.
  Context {X : FloatLib} {L : CaseLib} {G : GobLib}.

  Lemma live_locked w x tx :
    wok w -> find_tx (w_txs w) x = Some tx -> tx_live tx = true -> sh_locked (w_sh w) = true.
  Proof.
    intros K F Hl. destruct (sh_locked (w_sh w)) eqn:E; [reflexivity|].
    rewrite (wk_free w K E x tx F) in Hl. discriminate.
  Qed.

  Lemma live_unique w x tx y ty :
    wok w -> find_tx (w_txs w) x = Some tx -> tx_live tx = true ->
    find_tx (w_txs w) y = Some ty -> tx_live ty = true -> y = x.
  Proof.
    intros K F Hl F' Hl'. pose proof (live_locked w x tx K F Hl) as E.
    destruct (wk_held w K E) as (z & tz & _ & _ & U).
    rewrite (U x tx F Hl), (U y ty F' Hl'). reflexivity.
  Qed.

  Lemma sees_live s t : sees s t -> tx_live (snd s) = true.
  Proof. intros H. apply H. Qed.

  Lemma filter_none_closed rows :
    Forall rs_ok rows -> zlen (filter open_rs rows) = 0 -> Forall (fun rs => rs_next rs = -1) rows.
  Proof.
    intros R. induction R as [|rs rows H R IH]; simpl; [constructor|].
    unfold zlen in *. destruct (open_rs rs) eqn:E; simpl; [lia|].
    intros C. constructor; [|apply IH; exact C]. unfold open_rs in E. apply Z.leb_gt in E.
    unfold rs_ok in H. lia.
  Qed.

  Lemma wok_step w o out w' : wok w -> wstep w o out w' -> wok w'.
  Proof.
    intros K St. pose proof K as [(c & Hc & Sc) Kd Kf Kh Kl].
    destruct St as [x U F|x U F|x tx U|x c0 U|x c0 tx out U D O|x c0 tx t out sh' tx' t' Hf Hs Hv N1 N2 Ev Hs' SF
      |x c0 tx t Hf Hs Hv Hc0 C0|x c0 tx t h n Hf Hs Hv C0 Ht Hc0|s q]; try exact K.
    - (* Begin *)
      constructor; simpl.
      + exists c. auto.
      + intros y ty. rewrite find_app. destruct (find_tx (w_txs w) y) as [ty'|] eqn:E.
        * intros [= <-]. eauto.
        * destruct (x =? y)%nat; [intros [= <-]; discriminate|discriminate].
      + discriminate.
      + intros _. exists x, (newTx (w_sh w)). rewrite find_app. unfold unused in U. rewrite U, Nat.eqb_refl.
        split; [reflexivity|]. split; [reflexivity|]. intros y ty. rewrite find_app.
        destruct (find_tx (w_txs w) y) as [ty'|] eqn:E.
        * intros [= <-] Hl. rewrite (Kf F y ty' E) in Hl. discriminate.
        * destruct (x =? y)%nat eqn:Exy; [|discriminate]. intros _ _. symmetry. now apply Nat.eqb_eq.
      + intros y ty. rewrite find_app. destruct (find_tx (w_txs w) y) as [ty'|] eqn:E.
        * intros [= <-] Hl. rewrite (Kf F y ty' E) in Hl. discriminate.
        * destruct (x =? y)%nat eqn:Exy; [|discriminate]. intros [= <-] _. exists c. split.
          -- split; [reflexivity|]. simpl. split; [eauto|eauto].
          -- split; [exact Sc|]. simpl. split; [reflexivity|]. repeat constructor.
    - (* a call of the live transaction *)
      destruct SF as (F1 & F2 & F3). pose proof (sees_live _ _ Hs) as Hl. simpl in Hl.
      pose proof (live_locked w x tx K Hf Hl) as El. simpl in F1, F2, F3.
      assert (forall y ty, find_tx (set_tx (w_txs w) x tx') y = Some ty ->
                (y = x /\ ty = tx') \/ (y <> x /\ find_tx (w_txs w) y = Some ty)) as Hfind.
      { intros y ty. rewrite find_set, Hf. destruct (x =? y)%nat eqn:E.
        - apply Nat.eqb_eq in E. intros [= <-]. auto.
        - apply Nat.eqb_neq in E. auto. }
      constructor; simpl.
      + exists c. rewrite F1, F3. auto.
      + intros y ty Hy Hd. apply Hfind in Hy as [[-> ->]|[_ Hy]]; [|eauto].
        pose proof (sees_live _ _ Hs') as H. simpl in H. congruence.
      + rewrite F2, El. discriminate.
      + intros _. exists x, tx'. split; [rewrite find_set, Nat.eqb_refl, Hf; reflexivity|].
        split; [exact (sees_live _ _ Hs')|].
        intros y ty Hy Hly. apply Hfind in Hy as [[-> ->]|[Ny Hy]]; [reflexivity|].
        exact (live_unique w x tx y ty K Hf Hl Hy Hly).
      + intros y ty Hy Hly. apply Hfind in Hy as [[-> ->]|[Ny Hy]].
        * exists t'. split; [exact Hs'|]. eapply vstep_vok; eassumption.
        * exfalso. apply Ny. exact (live_unique w x tx y ty K Hf Hl Hy Hly).
    - (* completion *)
      pose proof (sees_live _ _ Hs) as Hl. simpl in Hl.
      assert (forall y ty, find_tx (set_tx (w_txs w) x (kills tx)) y = Some ty ->
                (y = x /\ ty = kills tx) \/ (y <> x /\ find_tx (w_txs w) y = Some ty)) as Hfind.
      { intros y ty. rewrite find_set, Hf. destruct (x =? y)%nat eqn:E.
        - apply Nat.eqb_eq in E. intros [= <-]. auto.
        - apply Nat.eqb_neq in E. auto. }
      assert (forall y ty, find_tx (set_tx (w_txs w) x (kills tx)) y = Some ty -> tx_live ty = false) as Hall.
      { intros y ty Hy. apply Hfind in Hy as [[-> ->]|[Ny Hy]]; [reflexivity|].
        destruct (tx_live ty) eqn:E; [|reflexivity]. exfalso. apply Ny.
        exact (live_unique w x tx y ty K Hf Hl Hy E). }
      destruct Hv as (Sv & Cv & Rv & _). simpl in Sv, Cv, Rv.
      pose proof Hs as (_ & (h' & Hh & Hn) & _). simpl in Hh, Hn.
      constructor; simpl.
      + destruct Hc0 as [[-> ->]|[-> ->]]; [|exists c; auto].
        exists t. split; [congruence|exact Sv].
      + intros y ty Hy Hd. apply Hfind in Hy as [[-> ->]|[_ Hy]]; [|eauto].
        split; [reflexivity|]. split; [reflexivity|]. simpl.
        apply filter_none_closed; [exact Rv|]. congruence.
      + intros _. exact Hall.
      + discriminate.
      + intros y ty Hy Hly. rewrite (Hall y ty Hy) in Hly. discriminate.
    - (* Intern *)
      constructor; simpl; [exists c; auto|exact Kd|exact Kf|exact Kh|].
      + intros y ty Hy Hly. destruct (Kl y ty Hy Hly) as (t & Hs & Hv). exists t.
        split; [exact Hs|exact Hv].
  Qed.

  Lemma wok_run w ops outs w' : wok w -> run w ops = (outs, w') -> wok w'.
  Proof.
    revert w outs. induction ops as [|o ops IH]; intros w outs K E; simpl in E.
    - now injection E as _ <-.
    - destruct (step w o) as [out w1] eqn:E1. destruct (run w1 ops) as [outs2 w2] eqn:E2.
      injection E as _ <-. refine (IH w1 outs2 _ E2). apply (wok_step w o out w1 K).
      now apply step_cases.
  Qed.

  Lemma reachable_wok w : reachable w -> wok w.
  Proof. intros (t & ops & outs & E). eapply wok_run; [apply wok_new|exact E]. Qed.

  Lemma reachable_step w o out w' : reachable w -> step w o = (out, w') -> reachable w'.
  Proof.
    intros (t & ops & outs & E) St. exists t, (ops ++ [o]), (outs ++ [out]).
    revert E. generalize (newStore t). revert outs. induction ops as [|o1 ops IH]; intros outs w0 E; simpl in *.
    - injection E as <- <-. now rewrite St.
    - destruct (step w0 o1) as [out1 w1]. destruct (run w1 ops) as [outs2 w2] eqn:E2.
      injection E as <- <-. now rewrite (IH outs2 w1 E2).
  Qed.

  Lemma committed_Some w : wok w -> nth_error (sh_heap (w_sh w)) (sh_tree (w_sh w)) = Some (committed w).
  Proof.
    intros K. destruct (wk_tree w K) as (c & Hc & _). unfold committed. rewrite Hc. f_equal.
    symmetry. now apply nth_error_nth.
  Qed.

  Lemma committed_eq w c : nth_error (sh_heap (w_sh w)) (sh_tree (w_sh w)) = Some c -> committed w = c.
  Proof. intros H. unfold committed. now apply nth_error_nth. Qed.

  Lemma view_sees w x tx t : find_tx (w_txs w) x = Some tx -> sees (w_sh w, tx) t -> view w x = Some t.
  Proof.
    intros F (Hl & (h & Hh & Ht) & _). unfold view. simpl in *. now rewrite F, Hl, Hh.
  Qed.

  Lemma view_active w x t : wok w -> view w x = Some t ->
    exists tx, find_tx (w_txs w) x = Some tx /\ sees (w_sh w, tx) t /\ vok (absS (w_sh w, tx) t).
  Proof.
    intros K Hv. unfold view in Hv. destruct (find_tx (w_txs w) x) as [tx|] eqn:F; [|discriminate].
    destruct (tx_live tx) eqn:Hl; [|discriminate].
    destruct (wk_live w K x tx F Hl) as (t' & Hs & Hk). pose proof Hs as (_ & (h & Hh & Ht) & _).
    simpl in Hh, Ht. rewrite Hh, Ht in Hv. injection Hv as <-. eauto.
  Qed.

  (** C17 *)
  Lemma committed_step w o out w' : reachable w -> step w o = (out, w') ->
    committed w' = committed w \/
    exists x, o = Call x CCommit /\ out = ODone /\ view w x = Some (committed w').
  Proof.
    intros R E. apply reachable_wok in R. pose proof R as K. apply step_cases in E; [|exact R].
    pose proof (committed_Some w R) as Hc.
    destruct E as [x U F|x U F|x tx U|x c0 U|x c0 tx out U D O|x c0 tx t out sh' tx' t' Hf Hs Hv N1 N2 Ev Hs' SF
      |x c0 tx t Hf Hs Hv Hc0 C0|x c0 tx t h n Hf Hs Hv C0 Ht Hc0|s q]; try (left; reflexivity).
    - left. apply committed_eq. simpl. destruct SF as (-> & _ & ->). exact Hc.
    - pose proof Hs as (_ & (h' & Hh & Hn) & _). simpl in Hh, Hn.
      destruct Hc0 as [[-> ->]|[-> ->]].
      + right. exists x. split; [reflexivity|]. split; [reflexivity|].
        rewrite (view_sees w x tx t Hf Hs). f_equal. symmetry. apply committed_eq. simpl. congruence.
      + left. apply committed_eq. simpl. exact Hc.
  Qed.

  Lemma begin_view w x w' : reachable w -> step w (Begin x) = (ODone, w') ->
    view w' x = Some (committed w) /\ committed w' = committed w /\ tables_of w' x = [] /\
    rowsets_of w' x = [] /\ refs_of w' x = [].
  Proof.
    intros R E. apply reachable_wok in R. pose proof (committed_Some w R) as Hc.
    apply step_cases in E; [|exact R]. inversion E as [x' U F| | | | | | | |]; subst.
    unfold view, tables_of, rowsets_of, refs_of, unused in *. simpl. rewrite find_app, U, Nat.eqb_refl. simpl.
    split; [exact Hc|]. repeat split; reflexivity.
  Qed.

  Lemma view_other w o out w' x : reachable w -> step w o = (out, w') -> active w x -> ~ on_tx x o ->
    view w' x = view w x.
  Proof.
    intros R E A N. apply reachable_wok in R. destruct A as (tx0 & F0 & L0).
    apply step_cases in E; [|exact R].
    destruct E as [y U F|y U F|y tx U|y c0 U|y c0 tx out U D O|y c0 tx t out sh' tx' t' Hf Hs Hv N1 N2 Ev Hs' SF
      |y c0 tx t Hf Hs Hv Hc0 C0|y c0 tx t h n Hf Hs Hv C0 Ht Hc0|s q]; try reflexivity.
    - rewrite (wk_free w R F x tx0 F0) in L0. discriminate.
    - exfalso. apply N. exists c0. f_equal.
      exact (live_unique w x tx0 y tx R F0 L0 Hf (sees_live _ _ Hs)).
    - exfalso. apply N. exists c0. f_equal.
      exact (live_unique w x tx0 y tx R F0 L0 Hf (sees_live _ _ Hs)).
  Qed.

  (** C19 *)
  Lemma active_unique w x y : reachable w -> active w x -> active w y -> x = y.
  Proof.
    intros R (tx & F & Hl) (ty & F' & Hl'). apply reachable_wok in R. symmetry.
    exact (live_unique w x tx y ty R F Hl F' Hl').
  Qed.

  Lemma begin_iff w x : reachable w -> unused w x ->
    (fst (step w (Begin x)) = ODone <-> forall y, ~ active w y) /\
    (fst (step w (Begin x)) = OBlocked <-> exists y, active w y).
  Proof.
    intros R U. apply reachable_wok in R. simpl. unfold unused in U. rewrite U.
    destruct (sh_locked (w_sh w)) eqn:E; simpl.
    - destruct (wk_held w R E) as (y & ty & F & Hl & _).
      split; split; try discriminate; try reflexivity.
      + intros H. exfalso. apply (H y). now exists ty.
      + intros _. exists y, ty. auto.
    - pose proof (wk_free w R E) as Hfree. split; split; try discriminate; try reflexivity.
      + intros _ y (ty & F & Hl). rewrite (Hfree y ty F) in Hl. discriminate.
      + intros (y & ty & F & Hl). rewrite (Hfree y ty F) in Hl. discriminate.
  Qed.

  Lemma begin_active w x w' : reachable w -> step w (Begin x) = (ODone, w') -> active w' x.
  Proof.
    intros R E. apply reachable_wok in R. apply step_cases in E; [|exact R].
    inversion E as [x' U F| | | | | | | |]; subst. unfold active, unused in *. simpl.
    rewrite find_app, U, Nat.eqb_refl. eexists. split; reflexivity.
  Qed.

  Lemma complete_inactive w x c w' : reachable w -> c = CCommit \/ c = CRollback ->
    step w (Call x c) = (ODone, w') -> active w x /\ completed w' x /\ forall y, ~ active w' y.
  Proof.
    intros R Hc E. apply reachable_wok in R. apply step_cases in E; [|exact R].
    inversion E as [|  | | |x1 c1 tx1 out1 U D O|x1 c1 tx1 t1 out1 sh1 tx1' t1' Hf Hs Hv N1 N2 Ev Hs' SF
      |x1 c1 tx1 t1 Hf Hs Hv Hc0 C0|x1 c1 tx1 t1 h1 n1 Hf Hs Hv C0 Ht Hc0|]; subst.
    - destruct Hc as [-> | ->]; simpl in O; discriminate.
    - destruct Hc; congruence.
    - split; [exists tx1; split; [exact Hf|exact (sees_live _ _ Hs)]|].
      split. { eexists. simpl. rewrite find_set, Nat.eqb_refl, Hf. split; reflexivity. }
      intros y (ty & F & Hl). simpl in F. rewrite find_set, Hf in F.
      destruct (x =? y)%nat eqn:Ey; [injection F as <-; discriminate|].
      apply Nat.eqb_neq in Ey. apply Ey. symmetry.
      exact (live_unique w x tx1 y ty R Hf (sees_live _ _ Hs) F Hl).
  Qed.

  (** C21 *)
  Lemma completed_call w x c out w' : reachable w -> completed w x -> step w (Call x c) = (out, w') ->
    w' = w /\
    match c with
    | CCommit | CRollback => out = OErr ErrTxCompleted
    | CNextStmt => out = ODone
    | CInfo i => match nth_error (tables_of w x) i with Some t => out = OInfo t | None => out = ONoObject end
    | _ => out = OPanic \/ out = ONoObject
    end.
  Proof.
    intros R (tx & F & Hl) E. apply reachable_wok in R. apply step_cases in E; [|exact R].
    assert (tables_of w x = tx_tables tx) as Et by (unfold tables_of; now rewrite F).
    inversion E as [|  | |x1 c1 U|x1 c1 tx1 out1 U D O|x1 c1 tx1 t1 out1 sh1 tx1' t1' Hf Hs Hv N1 N2 Ev Hs' SF
      |x1 c1 tx1 t1 Hf Hs Hv Hc0 C0|x1 c1 tx1 t1 h1 n1 Hf Hs Hv C0 Ht Hc0|]; subst.
    - unfold unused in U. congruence.
    - split; [reflexivity|]. rewrite Et. assert (tx1 = tx) as -> by congruence. exact O.
    - exfalso. assert (tx1 = tx) as -> by congruence. pose proof (sees_live _ _ Hs) as H; simpl in H; congruence.
    - exfalso. assert (tx1 = tx) as -> by congruence. pose proof (sees_live _ _ Hs) as H; simpl in H; congruence.
    - exfalso. assert (tx1 = tx) as -> by congruence. pose proof (sees_live _ _ Hs) as H; simpl in H; congruence.
  Qed.

  Lemma completed_step w o out w' x : wok w -> wstep w o out w' -> completed w x -> completed w' x.
  Proof.
    intros K E (tx0 & F0 & L0).
    destruct E as [y U F|y U F|y tx U|y c0 U|y c0 tx out U D O|y c0 tx t out sh' tx' t' Hf Hs Hv N1 N2 Ev Hs' SF
      |y c0 tx t Hf Hs Hv Hc0 C0|y c0 tx t h n Hf Hs Hv C0 Ht Hc0|s q]; try (exists tx0; split; assumption).
    - exists tx0. simpl. rewrite find_app, F0. auto.
    - exists tx0. simpl. rewrite find_set. destruct (y =? x)%nat eqn:Ey; [|auto].
      apply Nat.eqb_eq in Ey. subst y. pose proof (sees_live _ _ Hs) as H. simpl in H. congruence.
    - exists tx0. simpl. rewrite find_set. destruct (y =? x)%nat eqn:Ey; [|auto].
      apply Nat.eqb_eq in Ey. subst y. pose proof (sees_live _ _ Hs) as H. simpl in H. congruence.
  Qed.

  Lemma completed_run w ops outs w' x : reachable w -> run w ops = (outs, w') -> completed w x -> completed w' x.
  Proof.
    intros R. apply reachable_wok in R. revert w outs R. induction ops as [|o ops IH]; intros w outs K E C; simpl in E.
    - now injection E as _ <-.
    - destruct (step w o) as [out w1] eqn:E1. destruct (run w1 ops) as [outs2 w2] eqn:E2.
      injection E as _ <-. apply step_cases in E1; [|exact K].
      eapply IH; [eapply wok_step; eassumption|exact E2|eapply completed_step; eassumption].
  Qed.
End History.

(** Registered identifiers only grow by calls of [ID]. *)
Inductive interns {L : CaseLib} : idtable -> idtable -> Prop :=
  | interns_refl t : interns t t
  | interns_step t s q t' : interns (fst (ID t s q)) t' -> interns t t'.

Lemma interns_trans {L : CaseLib} t1 t2 t3 : interns t1 t2 -> interns t2 t3 -> interns t1 t3.
Proof. intros H. revert t3. induction H; intros; [assumption|]. eapply interns_step. eauto. Qed.

Section History2.
  Context {X : FloatLib} {L : CaseLib} {G : GobLib}.

  Lemma interns_gob t b t' id : idGobDecode t b = Some (t', id) -> interns t t'.
  Proof.
    destruct b as [|c s]; simpl; [discriminate|].
    destruct (1 <? bz c); [discriminate|].
    destruct (bz c =? 0); intros E; injection E as E.
    - eapply interns_step. rewrite E. constructor.
    - eapply interns_step. rewrite E. constructor.
  Qed.

  Lemma interns_fromWireIds l : forall t t' ids, fromWireIds t l = Some (t', ids) -> interns t t'.
  Proof.
    induction l as [|b l IH]; simpl; intros t t' ids E.
    - injection E as <- _. constructor.
    - destruct (idGobDecode t b) as [[t1 id]|] eqn:E1; [|discriminate].
      destruct (fromWireIds t1 l) as [[t2 ids2]|] eqn:E2; [|discriminate].
      injection E as <- _. eapply interns_trans; [eapply interns_gob; exact E1|eauto].
  Qed.

  Lemma interns_fromWire t wt t' ty : fromWire t wt = Some (t', ty) -> interns t t'.
  Proof.
    unfold fromWire. destruct (fromWireIds t _) as [[t1 ids]|] eqn:E; [|discriminate].
    apply interns_fromWireIds in E. destruct ids as [|d [|s [|n cols]]]; try discriminate.
    intros [= <- _]. exact E.
  Qed.

  (** Computations change identifiers only by registering some. *)
  Definition grows {A} (m : V A) : Prop :=
    forall t i r t' i', m (t, i) = (r, (t', i')) -> interns i i'.

  Lemma grows_bind {A B} (m : V A) (f : A -> V B) : grows m -> (forall a, grows (f a)) -> grows (vbind m f).
  Proof.
    intros Hm Hf t i r t' i' E. unfold vbind in E. destruct (m (t, i)) as [[a|e|] [t1 i1]] eqn:Em.
    - eapply interns_trans; [eapply Hm; exact Em|eapply Hf; exact E].
    - injection E as _ _ <-. eapply Hm; exact Em.
    - injection E as _ _ <-. eapply Hm; exact Em.
  Qed.
  Lemma grows_pure {A} (m : V A) : (forall s, snd (snd (m s)) = snd s) -> grows m.
  Proof. intros H t i r t' i' E. specialize (H (t, i)). rewrite E in H. simpl in H. subst. constructor. Qed.
  Lemma grows_ret {A} (a : A) : grows (vret a). Proof. now apply grows_pure. Qed.
  Lemma grows_panic {A} : grows (@vpanic A). Proof. now apply grows_pure. Qed.
  Lemma grows_fail {A} e : grows (@vfail A e). Proof. now apply grows_pure. Qed.
  Lemma grows_lift {A} (o : option A) : grows (vlift o). Proof. destruct o; now apply grows_pure. Qed.
  Lemma grows_liftRes {A} (o : res A) : grows (vliftRes o). Proof. now apply grows_pure. Qed.
  Lemma grows_read : grows vread. Proof. now apply grows_pure. Qed.
  Lemma grows_write t : grows (vwrite t). Proof. now apply grows_pure. Qed.
  Lemma grows_getI : grows vgetI. Proof. now apply grows_pure. Qed.
  Hint Resolve grows_ret grows_panic grows_fail grows_lift grows_liftRes grows_read grows_write grows_getI : grows.

  Lemma grows_getTableType tid : grows (vGetTableType tid).
  Proof.
    unfold vGetTableType. apply grows_bind; auto with grows. intros it. apply grows_bind; auto with grows.
    intros t0. destruct (t_get t0 it) as [x|]; auto with grows.
    destruct (it_row x) as [|v1 [|v2 [|v3 r]]]; auto with grows; destruct v2; auto with grows.
    destruct (x_gob_decode s) as [wt|]; auto with grows.
    intros t i r t' i' E. unfold vbind at 1, vgetI in E. simpl in E.
    destruct (fromWire i wt) as [[i1 ty]|] eqn:Ew.
    - injection E as _ _ <-. eapply interns_fromWire; exact Ew.
    - injection E as _ _ <-. constructor.
  Qed.

  Lemma grows_InsertRows tb rs : grows (vInsertRows tb rs).
  Proof.
    induction rs as [|r rs IH]; simpl; auto with grows.
    apply grows_bind; auto with grows. intros r'. apply grows_bind; auto with grows. intros it.
    apply grows_bind; auto with grows. intros t. destruct (t_has t it); auto with grows.
    apply grows_bind; auto with grows.
  Qed.

  Lemma grows_Delete tb k : grows (vDelete tb k).
  Proof.
    unfold vDelete. apply grows_bind; auto with grows. intros t. cbv zeta.
    apply grows_bind; auto with grows. intros _. destruct (snd _); auto with grows.
  Qed.

  Lemma vstep_interns v c out v' : vstep v c = (out, v') -> interns (v_idt v) (v_idt v').
  Proof.
    assert (forall A (f : vtx -> A -> outcome * vtx) (m : V A),
      (forall u a, v_idt (snd (f u a)) = v_idt u) -> grows m ->
      vrun f m v = (out, v') -> interns (v_idt v) (v_idt v')) as Hrun.
    { intros A f m Hf K E. unfold vrun in E. destruct (m (v_tree v, v_idt v)) as [r [t' i']] eqn:Em.
      apply K in Em. destruct r as [a|e|].
      - specialize (Hf (v_with v (t', i')) a). rewrite E in Hf. simpl in Hf. now rewrite Hf.
      - injection E as _ <-. exact Em.
      - injection E as _ <-. exact Em. }
    assert (interns (v_idt v) (v_idt v)) as Hr by constructor.
    intros E.
    destruct c as [tid tn cn ct p|tid tn cn ct p|tid| | | |i|i cols mn mx p|i rs|i|i|i|i cols vals|i]; simpl in E;
      try (injection E as _ <-; exact Hr).
    - eapply Hrun in E; eauto. unfold vOpenTable. apply grows_bind; [apply grows_getTableType|].
      intros [ty|]; auto with grows. repeat (destruct (negb _); auto with grows).
    - eapply Hrun in E; eauto. unfold vCreateTable. destruct (tid <? EngineTableId); auto with grows.
      apply grows_bind; [apply grows_getTableType|]. intros [ty|]; auto with grows.
      destruct (negb _); auto with grows. destruct p as [p|]; auto with grows.
      destruct (badRowId _ _ _ _); auto with grows. destruct (existsb _ _); auto with grows.
      unfold vSetTableType. apply grows_bind; auto with grows. intros i. apply grows_bind; auto with grows.
      intros it. apply grows_bind; auto with grows.
    - eapply Hrun in E; eauto. unfold vDropTable. apply grows_bind; [apply grows_getTableType|].
      intros [ty|]; auto with grows. apply grows_bind.
      + unfold vDeleteTableType. apply grows_bind; auto with grows. intros it.
        apply grows_bind; auto with grows. intros t. apply grows_bind; auto with grows.
      + intros [|]; auto with grows.
    - destruct (nth_error _ _); injection E as _ <-; exact Hr.
    - destruct (nth_error _ _) as [tbl|]; [|injection E as _ <-; exact Hr].
      eapply Hrun in E; eauto. apply grows_pure. intros s. now rewrite vRows_pure.
    - destruct (nth_error _ _) as [tbl|]; [|injection E as _ <-; exact Hr].
      eapply Hrun in E; eauto. apply grows_InsertRows.
    - destruct (nth_error _ _) as [rs|]; [|injection E as _ <-; exact Hr].
      destruct (_ <? _); [injection E as _ <-; exact Hr|]. destruct (_ =? _); [injection E as _ <-; exact Hr|].
      destruct (znth _ _); injection E as _ <-; exact Hr.
    - destruct (nth_error _ _) as [rs|]; [|injection E as _ <-; exact Hr].
      destruct (_ <=? _); [injection E as _ <-; exact Hr|]. destruct (znth _ _); injection E as _ <-; exact Hr.
    - destruct (nth_error _ _) as [rs|]; [|injection E as _ <-; exact Hr].
      destruct (_ <? _); injection E as _ <-; exact Hr.
    - destruct (nth_error _ _) as [rr|]; [|injection E as _ <-; exact Hr].
      destruct (nth_error _ _) as [tbl|]; [|injection E as _ <-; exact Hr].
      eapply Hrun in E; eauto. unfold vUpdate. destruct (negb _); auto with grows.
      apply grows_bind; auto with grows. intros t. destruct (t_get t _) as [it|]; auto with grows.
      apply grows_bind; auto with grows. intros r. destruct (ColumnKeyUpdated _ _).
      + apply grows_bind; [apply grows_Delete|]. intros _. apply grows_InsertRows.
      + apply grows_bind; auto with grows. intros it'. apply grows_bind; auto with grows.
    - destruct (nth_error _ _) as [rr|]; [|injection E as _ <-; exact Hr].
      destruct (nth_error _ _) as [tbl|]; [|injection E as _ <-; exact Hr].
      eapply Hrun in E; eauto. apply grows_Delete.
  Qed.

  Definition with_idt (w : world) (t : idtable) : world :=
    {| w_sh := sh_with_idt (w_sh w) t; w_txs := w_txs w |}.

  Lemma with_idt_same w : with_idt w (sh_idt (w_sh w)) = w.
  Proof. destruct w as [[h n l t] txs]. reflexivity. Qed.

  Lemma run_interns t t' : interns t t' -> forall w, sh_idt (w_sh w) = t ->
    exists ids outs, Forall is_intern ids /\ run w ids = (outs, with_idt w t') /\ length outs = length ids.
  Proof.
    induction 1 as [t|t s q t' H IH]; intros w E.
    - exists [], []. split; [constructor|]. simpl. subst t. now rewrite with_idt_same.
    - destruct (IH (with_idt w (fst (ID t s q))) eq_refl) as (ids & outs & Hi & Hr & Hl).
      exists (Intern s q :: ids), (ODone :: outs). split; [constructor; [now exists s, q|exact Hi]|].
      split; [|simpl; now rewrite Hl]. simpl. rewrite E. unfold with_idt in *. simpl in *. now rewrite Hr.
  Qed.

  (** Two states that differ in transaction [x], which is not active. *)
  Definition txsim (sh1 sh2 : shared) (o1 o2 : option txstate) : Prop :=
    match o1, o2 with
    | None, None => True
    | Some t1, Some t2 =>
        tx_live t1 = tx_live t2 /\
        tx_tables t1 = tx_tables t2 /\ tx_rows t1 = tx_rows t2 /\ tx_refs t1 = tx_refs t2 /\
        (tx_live t1 = true -> exists t, sees (sh1, t1) t /\ sees (sh2, t2) t /\ absS (sh1, t1) t = absS (sh2, t2) t)
    | _, _ => False
    end.

  Record same_but (x : nat) (w1 w2 : world) : Prop := {
    sb_locked : sh_locked (w_sh w1) = sh_locked (w_sh w2);
    sb_idt : sh_idt (w_sh w1) = sh_idt (w_sh w2);
    sb_committed : committed w1 = committed w2;
    sb_txs : forall y, y <> x -> txsim (w_sh w1) (w_sh w2) (find_tx (w_txs w1) y) (find_tx (w_txs w2) y)
  }.

  Lemma sees_inj s t t' : sees s t -> sees s t' -> t = t'.
  Proof. intros (_ & (h & Hh & Ht) & _) (_ & (h' & Hh' & Ht') & _). congruence. Qed.

  Lemma absS_fields s1 t1 s2 t2 : absS s1 t1 = absS s2 t2 ->
    t1 = t2 /\ sh_idt (fst s1) = sh_idt (fst s2) /\ tx_count (snd s1) = tx_count (snd s2) /\
    tx_tables (snd s1) = tx_tables (snd s2) /\ tx_rows (snd s1) = tx_rows (snd s2) /\
    tx_refs (snd s1) = tx_refs (snd s2).
  Proof. unfold absS. intros [= H1 H2 H3 H4 H5 H6]. tauto. Qed.

  Lemma dead_txsim sh1 sh2 t1 t2 sh1' sh2' :
    txsim sh1 sh2 (Some t1) (Some t2) -> tx_live t1 = false -> txsim sh1' sh2' (Some t1) (Some t2).
  Proof.
    intros (A & B & C & D & E) F. simpl. rewrite F in *. split; [exact A|]. split; [exact B|].
    split; [exact C|]. split; [exact D|]. discriminate.
  Qed.

  Lemma same_but_step x w1 w2 o out w1' :
    wok w1 -> wok w2 -> same_but x w1 w2 -> ~ names_tx x o ->
    step w1 o = (out, w1') ->
    exists w2', step w2 o = (out, w2') /\ same_but x w1' w2'.
  Proof.
    intros K1 K2 [S1 S2 S3 S4] N E. pose proof E as E0. apply step_cases in E; [|exact K1].
    destruct (step w2 o) as [out2 w2'] eqn:E2.
    exists w2'. pose proof E2 as E2'. apply step_cases in E2; [|exact K2].
    pose proof (committed_Some w1 K1) as C1. pose proof (committed_Some w2 K2) as C2.
    destruct E as [y U F|y U F|y tx U|y c0 U|y c0 tx out U D O|y c0 tx t out sh' tx' t' Hf Hs Hv N1 N2 Ev Hs' SF
      |y c0 tx t Hf Hs Hv Hc0 C0|y c0 tx t h n Hf Hs Hv C0 Ht Hc0|s q].
    - (* Begin *)
      assert (y <> x) as Ny by (intros ->; apply N; now left).
      pose proof (S4 y Ny) as Sy. unfold unused in U. rewrite U in Sy. simpl in Sy.
      destruct (find_tx (w_txs w2) y) as [ty|] eqn:Fy; [contradiction|].
      simpl in E2'. rewrite Fy, <- S1, F in E2'. injection E2' as <- <-.
      split; [reflexivity|]. constructor; simpl; auto.
      intros z Nz. rewrite !find_app. pose proof (S4 z Nz) as Sz.
      destruct (find_tx (w_txs w1) z) as [tz|] eqn:F1, (find_tx (w_txs w2) z) as [tz'|] eqn:F2; try contradiction.
      + eapply dead_txsim; [exact Sz|]. exact (wk_free w1 K1 F z tz F1).
      + destruct (y =? z)%nat; [|exact I]. simpl. repeat (split; [reflexivity|]).
        intros _. exists (committed w1). split; [|split].
        * split; [reflexivity|]. simpl. split; eauto.
        * split; [reflexivity|]. simpl. rewrite S3. split; eauto.
        * unfold absS. simpl. now rewrite S2.
    - (* blocked *)
      assert (y <> x) as Ny by (intros ->; apply N; now left).
      pose proof (S4 y Ny) as Sy. unfold unused in U. rewrite U in Sy. simpl in Sy.
      destruct (find_tx (w_txs w2) y) as [ty|] eqn:Fy; [contradiction|].
      simpl in E2'. rewrite Fy, <- S1, F in E2'. injection E2' as <- <-.
      split; [reflexivity|]. now constructor.
    - assert (y <> x) as Ny by (intros ->; apply N; now left).
      pose proof (S4 y Ny) as Sy. rewrite U in Sy. simpl in Sy.
      destruct (find_tx (w_txs w2) y) as [ty|] eqn:Fy; [|contradiction].
      simpl in E2'. rewrite Fy in E2'. injection E2' as <- <-.
      split; [reflexivity|]. now constructor.
    - assert (y <> x) as Ny by (intros ->; apply N; right; now exists c0).
      pose proof (S4 y Ny) as Sy. unfold unused in U. rewrite U in Sy. simpl in Sy.
      destruct (find_tx (w_txs w2) y) as [ty|] eqn:Fy; [contradiction|].
      simpl in E2'. rewrite Fy in E2'. injection E2' as <- <-.
      split; [reflexivity|]. now constructor.
    - (* dead *)
      assert (y <> x) as Ny by (intros ->; apply N; right; now exists c0).
      pose proof (S4 y Ny) as Sy. rewrite U in Sy.
      destruct (find_tx (w_txs w2) y) as [ty|] eqn:Fy; [|contradiction].
      simpl in Sy. destruct Sy as (A1 & A2 & A3 & A4 & _).
      pose proof D as (D1 & D2 & D3).
      assert (dead_ok ty) as D' by (apply (wk_dead w2 K2 y ty Fy); congruence).
      simpl in E2'. rewrite Fy in E2'.
      assert (forall c out out', dead_outcome tx c out -> dead_outcome ty c out' ->
         callStep (w_sh w1, tx) c = (out, (w_sh w1, tx)) -> callStep (w_sh w2, ty) c = (out', (w_sh w2, ty)) ->
         out = out') as Hdet.
      { clear -A2 A3 A4. intros c out out' H1 H2 E1 E2.
        destruct c; simpl in *; try congruence.
        - destruct H1, H2; try congruence; subst;
          unfold runM in *; repeat match goal with
          | H : (let '(r, s') := ?m in (outcome_of _ r, s')) = _ |- _ => destruct m as [[]]; simpl in H; try congruence
          end.
        - destruct H1, H2; try congruence; subst;
          unfold runM in *; repeat match goal with
          | H : (let '(r, s') := ?m in (outcome_of _ r, s')) = _ |- _ => destruct m as [[]]; simpl in H; try congruence
          end.
        - destruct H1, H2; try congruence; subst;
          unfold runM in *; repeat match goal with
          | H : (let '(r, s') := ?m in (outcome_of _ r, s')) = _ |- _ => destruct m as [[]]; simpl in H; try congruence
          end.
        - rewrite A2 in H1. destruct (nth_error _ _); congruence.
        - rewrite A2 in E1. destruct (nth_error _ _); [|congruence]. destruct H1, H2; try congruence; subst;
          unfold runM in *; repeat match goal with
          | H : (let '(r, s') := ?m in (outcome_of _ r, s')) = _ |- _ => destruct m as [[]]; simpl in H; try congruence
          end.
        - rewrite A2 in E1. destruct (nth_error _ _); [|congruence]. destruct H1, H2; try congruence; subst;
          unfold runM in *; repeat match goal with
          | H : (let '(r, s') := ?m in (outcome_of _ r, s')) = _ |- _ => destruct m as [[]]; simpl in H; try congruence
          end.
        - rewrite A3 in E1. destruct (nth_error _ _); [|congruence]. destruct H1, H2; try congruence; subst;
          unfold runM in *; repeat match goal with
          | H : (let '(r, s') := ?m in (outcome_of _ r, s')) = _ |- _ => destruct m as [[]]; simpl in H; try congruence
          end.
        - rewrite A3 in E1. destruct (nth_error _ _); [|congruence]. destruct H1, H2; try congruence; subst;
          unfold runM in *; repeat match goal with
          | H : (let '(r, s') := ?m in (outcome_of _ r, s')) = _ |- _ => destruct m as [[]]; simpl in H; try congruence
          end.
        - rewrite A3 in E1. destruct (nth_error _ _); [|congruence]. destruct H1, H2; try congruence; subst;
          unfold runM in *; repeat match goal with
          | H : (let '(r, s') := ?m in (outcome_of _ r, s')) = _ |- _ => destruct m as [[]]; simpl in H; try congruence
          end.
        - rewrite A4 in E1. destruct (nth_error _ _) as [rr|]; [|congruence].
          rewrite A2 in E1. destruct (nth_error _ _); [|congruence]. destruct H1, H2; try congruence; subst;
          unfold runM in *; repeat match goal with
          | H : (let '(r, s') := ?m in (outcome_of _ r, s')) = _ |- _ => destruct m as [[]]; simpl in H; try congruence
          end.
        - rewrite A4 in E1. destruct (nth_error _ _) as [rr|]; [|congruence].
          rewrite A2 in E1. destruct (nth_error _ _); [|congruence]. destruct H1, H2; try congruence; subst;
          unfold runM in *; repeat match goal with
          | H : (let '(r, s') := ?m in (outcome_of _ r, s')) = _ |- _ => destruct m as [[]]; simpl in H; try congruence
          end. }
      destruct (call_dead (w_sh w1) tx c0 D) as (o1 & Ec1 & Ho1).
      destruct (call_dead (w_sh w2) ty c0 D') as (o2 & Ec2 & Ho2).
      rewrite Ec2 in E2'. injection E2' as <- <-. rewrite (set_same _ _ _ Fy), world_eta.
      assert (out = o1) as ->.
      { simpl in E0. rewrite U, Ec1 in E0. now injection E0. }
      split; [|now constructor]. f_equal. symmetry. eapply Hdet; eassumption.
    - (* live *)
      assert (y <> x) as Ny by (intros ->; apply N; right; now exists c0).
      pose proof (S4 y Ny) as Sy. rewrite Hf in Sy.
      destruct (find_tx (w_txs w2) y) as [ty|] eqn:Fy; [|contradiction].
      simpl in Sy. destruct Sy as (A1 & A2 & A3 & A4 & A5).
      pose proof (sees_live _ _ Hs) as Hl. simpl in Hl.
      destruct (A5 Hl) as (t2 & Hs1 & Hs2 & EA).
      assert (t2 = t) as -> by exact (sees_inj _ _ _ Hs1 Hs).
      inversion E2 as [|  | |x1 c1 U1|x1 c1 tx1 out1 U1 D1 O1|x1 c1 tx1 t1 out1 sh1 tx1' t1' Hf1 Hsee1 Hv1 N11 N21 Ev1 Hs1' SF1
        |x1 c1 tx1 t1 Hf1 Hsee1 Hv1 Hc1 C11|x1 c1 tx1 t1 h1 n1 Hf1 Hsee1 Hv1 C11 Ht1 Hc1|]; subst.
      + unfold unused in U1. congruence.
      + destruct D1 as (D1 & _). congruence.
      + assert (tx1 = ty) as -> by congruence.
        assert (t1 = t) as -> by exact (sees_inj _ _ _ Hsee1 Hs2).
        rewrite <- EA, Ev in Ev1. pose proof (f_equal fst Ev1) as Eo. pose proof (f_equal snd Ev1) as EA'.
        cbn [fst snd] in Eo, EA'. subst.
        pose proof (absS_fields _ _ _ _ EA') as (B1 & B2 & B3 & B4 & B5 & B6). simpl in *. subst t1'.
        split; [reflexivity|]. destruct SF as (F1 & F2 & F3). destruct SF1 as (G1 & G2 & G3).
        constructor; simpl.
        * congruence.
        * exact B2.
        * rewrite (committed_eq {| w_sh := sh'; w_txs := _ |} (committed w1)) by (simpl; congruence).
          rewrite (committed_eq {| w_sh := sh1; w_txs := _ |} (committed w2)) by (simpl; congruence). exact S3.
        * intros z Nz. rewrite !find_set, Hf, Fy. destruct (y =? z)%nat eqn:Ez.
          -- simpl. pose proof (sees_live _ _ Hs') as La. pose proof (sees_live _ _ Hs1') as Lb. simpl in La, Lb.
             split; [congruence|]. split; [exact B4|]. split; [exact B5|]. split; [exact B6|].
             intros _. exists t'. split; [exact Hs'|]. split; [exact Hs1'|]. exact EA'.
          -- apply Nat.eqb_neq in Ez. pose proof (S4 z Nz) as Sz.
             destruct (find_tx (w_txs w1) z) as [tz|] eqn:F1z, (find_tx (w_txs w2) z) as [tz'|] eqn:F2z; try exact Sz.
             eapply dead_txsim; [exact Sz|]. destruct (tx_live tz) eqn:Lz; [|reflexivity].
             exfalso. apply Ez. symmetry. exact (live_unique w1 y tx z tz K1 Hf Hl F1z Lz).
      + destruct Hc1; congruence.
      + destruct Hc1 as [[? _]|[? _]]; congruence.
    - (* busy *)
      assert (y <> x) as Ny by (intros ->; apply N; right; now exists c0).
      pose proof (S4 y Ny) as Sy. rewrite Hf in Sy.
      destruct (find_tx (w_txs w2) y) as [ty|] eqn:Fy; [|contradiction].
      simpl in Sy. destruct Sy as (A1 & A2 & A3 & A4 & A5).
      pose proof (sees_live _ _ Hs) as Hl. simpl in Hl.
      destruct (A5 Hl) as (t2 & Hs1 & Hs2 & EA).
      pose proof (absS_fields _ _ _ _ EA) as (_ & _ & B3 & _). simpl in B3.
      inversion E2 as [|  | |x1 c1 U1|x1 c1 tx1 out1 U1 D1 O1|x1 c1 tx1 t1 out1 sh1 tx1' t1' Hf1 Hsee1 Hv1 N11 N21 Ev1 Hs1' SF1
        |x1 c1 tx1 t1 Hf1 Hsee1 Hv1 Hc1 C11|x1 c1 tx1 t1 h1 n1 Hf1 Hsee1 Hv1 C11 Ht1 Hc1|]; subst.
      + unfold unused in U1. congruence.
      + destruct D1 as (D1 & _). congruence.
      + destruct Hc0; congruence.
      + split; [reflexivity|]. now constructor.
      + exfalso. apply C0. congruence.
    - (* completion *)
      assert (y <> x) as Ny by (intros ->; apply N; right; now exists c0).
      pose proof (S4 y Ny) as Sy. rewrite Hf in Sy.
      destruct (find_tx (w_txs w2) y) as [ty|] eqn:Fy; [|contradiction].
      simpl in Sy. destruct Sy as (A1 & A2 & A3 & A4 & A5).
      pose proof (sees_live _ _ Hs) as Hl. simpl in Hl.
      destruct (A5 Hl) as (t2 & Hs1 & Hs2 & EA).
      assert (t2 = t) as -> by exact (sees_inj _ _ _ Hs1 Hs).
      pose proof (absS_fields _ _ _ _ EA) as (_ & _ & B3 & _). simpl in B3.
      inversion E2 as [|  | |x1 c1 U1|x1 c1 tx1 out1 U1 D1 O1|x1 c1 tx1 t1 out1 sh1 tx1' t1' Hf1 Hsee1 Hv1 N11 N21 Ev1 Hs1' SF1
        |x1 c1 tx1 t1 Hf1 Hsee1 Hv1 Hc1 C11|x1 c1 tx1 t1 h1 n1 Hf1 Hsee1 Hv1 C11 Ht1 Hc1|]; subst.
      + unfold unused in U1. congruence.
      + destruct D1 as (D1 & _). congruence.
      + destruct Hc0 as [[? _]|[? _]]; congruence.
      + exfalso. apply C11. congruence.
      + assert (tx1 = ty) as -> by congruence. split; [reflexivity|]. constructor; simpl.
        * reflexivity.
        * exact S2.
        * pose proof Hs1 as (_ & (ha & Hha & Hta) & _). pose proof Hs2 as (_ & (hb & Hhb & Htb) & _). simpl in *.
          destruct Hc0 as [[-> ->]|[-> ->]], Hc1 as [[Hc1 ->]|[Hc1 ->]]; try discriminate.
          -- rewrite (committed_eq {| w_sh := unlock (w_sh w1) h; w_txs := _ |} t) by (simpl; congruence).
             rewrite (committed_eq {| w_sh := unlock (w_sh w2) h1; w_txs := _ |} t) by (simpl; congruence). reflexivity.
          -- rewrite (committed_eq {| w_sh := unlock (w_sh w1) _; w_txs := _ |} (committed w1)) by (simpl; congruence).
             rewrite (committed_eq {| w_sh := unlock (w_sh w2) _; w_txs := _ |} (committed w2)) by (simpl; congruence). exact S3.
        * intros z Nz. rewrite !find_set, Hf, Fy. destruct (y =? z)%nat eqn:Ez.
          -- simpl. repeat (split; [auto; fail|]). discriminate.
          -- apply Nat.eqb_neq in Ez. pose proof (S4 z Nz) as Sz.
             destruct (find_tx (w_txs w1) z) as [tz|] eqn:F1z, (find_tx (w_txs w2) z) as [tz'|] eqn:F2z; try exact Sz.
             eapply dead_txsim; [exact Sz|]. destruct (tx_live tz) eqn:Lz; [|reflexivity].
             exfalso. apply Ez. symmetry. exact (live_unique w1 y tx z tz K1 Hf Hl F1z Lz).
    - (* Intern *)
      simpl in E2'. injection E2' as <- <-. split; [reflexivity|]. constructor; simpl.
      + exact S1.
      + now rewrite S2.
      + exact S3.
      + intros z Nz. pose proof (S4 z Nz) as Sz.
        destruct (find_tx (w_txs w1) z) as [tz|], (find_tx (w_txs w2) z) as [tz'|]; try exact Sz.
        simpl in *. destruct Sz as (A1 & A2 & A3 & A4 & A5). repeat (split; [assumption|]).
        intros Hl. destruct (A5 Hl) as (t & Hs1 & Hs2 & EA). exists t. split; [exact Hs1|]. split; [exact Hs2|].
        unfold absS in *. simpl in *. injection EA as E1 E3 E4 E5 E6. now rewrite S2, E3, E4, E5, E6.
  Qed.
End History2.
