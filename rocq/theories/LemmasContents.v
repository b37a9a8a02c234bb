(** Contents of tables in all histories. *)

From Verif Require Import ModelStore SpecTable LemmasBase LemmasKey LemmasValue LemmasTree LemmasStore LemmasWorld
  LemmasHistory LemmasSerial LemmasTable.

Section World.
  Context {X : FloatLib} {L : CaseLib} {G : GobLib}.

  (** A call on an active transaction, by value. *)
  Lemma live_step w x t c out w' :
    wok w -> view w x = Some t -> c <> CCommit -> c <> CRollback -> step w (Call x c) = (out, w') ->
    exists v v', vstep v c = (out, v') /\ vok v /\
      v_tree v = t /\ v_tables v = tables_of w x /\ v_rows v = rowsets_of w x /\ v_refs v = refs_of w x /\
      v_idt v = sh_idt (w_sh w) /\
      view w' x = Some (v_tree v') /\ tables_of w' x = v_tables v' /\ rowsets_of w' x = v_rows v' /\
      refs_of w' x = v_refs v' /\ sh_idt (w_sh w') = v_idt v' /\ committed w' = committed w.
  Proof.
    intros K Hv N1 N2 E. destruct (view_active w x t K Hv) as (tx & F & Hs & Hk).
    simpl in E. rewrite F in E.
    destruct (call_live (w_sh w, tx) t c Hs N1 N2) as (out' & [sh' tx'] & t' & E1 & E2 & Hs' & SF).
    rewrite E1 in E. injection E as <- <-.
    exists (absS (w_sh w, tx) t), (absS (sh', tx') t'). split; [exact E2|]. split; [exact Hk|].
    unfold tables_of, rowsets_of, refs_of. rewrite F. simpl.
    assert (find_tx (set_tx (w_txs w) x tx') x = Some tx') as F' by (now rewrite find_set, F, Nat.eqb_refl).
    rewrite F'. do 5 (split; [reflexivity|]). split.
    { apply (view_sees {| w_sh := sh'; w_txs := set_tx (w_txs w) x tx' |} x tx' t'); assumption. }
    do 4 (split; [reflexivity|]). apply committed_eq. simpl.
    destruct SF as (S1 & _ & S2). simpl in S1, S2. rewrite S1, S2. now apply committed_Some.
  Qed.

  Lemma view_none w x : wok w -> (forall tx, find_tx (w_txs w) x = Some tx -> tx_live tx = false) -> view w x = None.
  Proof.
    intros K H. unfold view. destruct (find_tx (w_txs w) x) as [tx|]; [|reflexivity]. now rewrite H.
  Qed.

  Lemma complete_committed w x c tx t h n :
    wok w -> find_tx (w_txs w) x = Some tx -> sees (w_sh w, tx) t -> tx_tree tx = Some h ->
    (c = CCommit /\ n = h \/ c = CRollback /\ n = sh_tree (w_sh w)) ->
    committed {| w_sh := unlock (w_sh w) n; w_txs := set_tx (w_txs w) x (kills tx) |} = committed w \/
    committed {| w_sh := unlock (w_sh w) n; w_txs := set_tx (w_txs w) x (kills tx) |} = t.
  Proof.
    intros K F (_ & (h' & Hh & Hn) & _) Eh Hc. simpl in Hh, Hn. rewrite Hh in Eh. injection Eh as ->.
    destruct Hc as [[_ ->]|[_ ->]].
    - right. now apply committed_eq.
    - left. apply committed_eq. exact (committed_Some w K).
  Qed.

  Section One.
    Context (nu : Prop) (tid : Z).

    Definition WInv (d : bool) (w : world) : Prop :=
      Inv nu tid d (committed w) [] [] [] /\
      forall x t, view w x = Some t -> Inv nu tid d t (tables_of w x) (rowsets_of w x) (refs_of w x).

    Definition dstepO (d : bool) (o : op) (out : outcome) : bool :=
      match o with Call _ c => dstep tid d c out | _ => d end.

    Lemma dstep_mono d c out : d = true -> dstep tid d c out = true.
    Proof. intros ->. destruct c, out; try reflexivity. simpl. now rewrite orb_true_r. Qed.

    Lemma Inv_mono d d' t tbs rss refs : (d = true -> d' = true) -> Inv nu tid d t tbs rss refs -> Inv nu tid d' t tbs rss refs.
    Proof.
      intros H HI. destruct d'; [exact (Inv_drop nu tid d t tbs rss refs HI)|].
      destruct d; [discriminate H; reflexivity|exact HI].
    Qed.

    Lemma WInv_step d w o out w' :
      FloatLib_ok X -> GobLib_ok G -> EngineTableId <= tid ->
      wok w -> WInv d w -> op_typed o -> (nu -> no_update o) ->
      (forall x tn cn ct p, o = Call x (CCreateTable tid tn cn ct p) -> out = ODone -> d = false) ->
      step w o = (out, w') -> WInv (dstepO d o out) w'.
    Proof.
      intros HX HG Ht K [HC HV] HT HN Hcr E. pose proof E as E0. apply step_cases in E; [|exact K].
      assert (forall c out, d = true -> dstep tid d c out = true) as Mono by (intros; now apply dstep_mono).
      assert (forall c out', (forall x t, view w x = Some t ->
         Inv nu tid (dstep tid d c out') t (tables_of w x) (rowsets_of w x) (refs_of w x)) /\
         Inv nu tid (dstep tid d c out') (committed w) [] [] []) as Same.
      { intros c out'. split.
        - intros x t Hv. apply (Inv_mono d); [intros; now apply Mono|now apply HV].
        - apply (Inv_mono d); [intros; now apply Mono|exact HC]. }
      destruct E as [y U F|y U F|y tx U|y c0 U|y c0 tx out U D O|y c0 tx t out sh' tx' t' Hf Hs Hv N1 N2 Ev Hs' SF
        |y c0 tx t Hf Hs Hv Hc0 C0|y c0 tx t h n Hf Hs Hv C0 Hh Hc0|s q]; cbn [dstepO].
      - split; [exact HC|]. intros x t Hv. unfold view, tables_of, rowsets_of, refs_of in *. simpl in *.
        rewrite find_app in *. destruct (find_tx (w_txs w) x) as [tx|] eqn:Fx.
        { rewrite (wk_free w K F x tx Fx) in Hv. discriminate. }
        destruct (y =? x)%nat; [|discriminate]. simpl in *.
        rewrite (committed_Some w K) in Hv. injection Hv as <-. exact HC.
      - split; assumption.
      - split; assumption.
      - destruct (Same c0 ONoObject). split; assumption.
      - destruct (Same c0 out). split; assumption.
      - pose proof (view_sees w y tx t Hf Hs) as Hvy.
        destruct (live_step w y t c0 out _ K Hvy N1 N2 E0) as (v & v' & Es & Hk & A1 & A2 & A3 & A4 & A5 & B1 & B2 & B3 & B4 & B5 & B6).
        split; [rewrite B6; exact (proj2 (Same c0 out))|].
        intros x t0 Hx. destruct (Nat.eq_dec y x) as [<-|Nx].
        + rewrite B1 in Hx. injection Hx as <-. rewrite B2, B3, B4.
          assert (InvV nu tid (dstep tid d c0 out) v') as R.
          { apply (Inv_step nu tid d y v c0 out v' HX HG Ht Hk); try assumption.
            - unfold InvV. rewrite A1, A2, A3, A4. now apply HV.
            - intros tn cn ct p -> ->. eapply Hcr; reflexivity. }
          exact R.
        + exfalso. unfold view in Hx. simpl in Hx. rewrite find_set in Hx.
          rewrite (proj2 (Nat.eqb_neq y x) Nx) in Hx.
          destruct (find_tx (w_txs w) x) as [tx1|] eqn:Fx; [|discriminate].
          destruct (tx_live tx1) eqn:Lx; [|discriminate].
          apply Nx. symmetry. exact (live_unique w y tx x tx1 K Hf (sees_live _ _ Hs) Fx Lx).
      - destruct (Same c0 OPanic). split; assumption.
      - split.
        + destruct (complete_committed w y c0 tx t h n K Hf Hs Hh Hc0) as [-> | ->].
          * exact (proj2 (Same c0 ODone)).
          * apply (Inv_forget nu tid _ t _ _ _ (proj1 (Same c0 ODone) y t (view_sees w y tx t Hf Hs))).
        + intros x t0 Hx. exfalso. unfold view in Hx. simpl in Hx. rewrite find_set, Hf in Hx.
          destruct (y =? x)%nat eqn:Ey; [discriminate|].
          destruct (find_tx (w_txs w) x) as [tx1|] eqn:Fx; [|discriminate].
          destruct (tx_live tx1) eqn:Lx; [|discriminate].
          apply Nat.eqb_neq in Ey. apply Ey. symmetry. exact (live_unique w y tx x tx1 K Hf (sees_live _ _ Hs) Fx Lx).
      - split; assumption.
    Qed.

    Lemma WInv_run h : forall d w w',
      FloatLib_ok X -> GobLib_ok G -> EngineTableId <= tid ->
      wok w -> WInv d w -> Forall op_typed (map fst h) -> (nu -> Forall no_update (map fst h)) ->
      (if d then created tid h else recreated tid h) = false ->
      run w (map fst h) = (map snd h, w') -> WInv (dropped tid h || d) w'.
    Proof.
      induction h as [|[o out] h IH]; intros d w w' HX HG Ht K HI HT HN HR E; simpl in E.
      - injection E as <-. exact HI.
      - destruct (step w o) as [out' w1] eqn:E1. destruct (run w1 (map fst h)) as [outs w2] eqn:E2.
        injection E as -> -> ->. simpl in HT, HN. inversion HT as [|o' l' HT1 HT2]; subst.
        assert (WInv (dstepO d o out) w1) as HI1.
        { apply (WInv_step d w o out w1 HX HG Ht K HI HT1); [| |exact E1].
          - intros n. specialize (HN n). now inversion HN.
          - intros x tn cn ct p -> ->. destruct d; [|reflexivity]. simpl in HR. rewrite Z.eqb_refl in HR. discriminate. }
        assert (dropped tid ((o, out) :: h) || d = dropped tid h || dstepO d o out) as ->.
        { destruct o as [y|y c|s q]; try reflexivity. destruct c; try reflexivity. destruct out; try reflexivity.
          simpl. now rewrite (orb_comm (tid0 =? tid)), orb_assoc. }
        apply (IH (dstepO d o out) w1 w' HX HG Ht); try assumption.
        + apply step_cases in E1; [|exact K]. eapply wok_step; eassumption.
        + intros n. specialize (HN n). now inversion HN.
        + destruct d; simpl in HR.
          * assert (dstepO true o out = true) as ->.
            { destruct o as [y|y c|s q]; try reflexivity. now apply dstep_mono. }
            destruct o as [y|y c|s q]; try exact HR. destruct c; try exact HR. destruct out; try exact HR.
            now apply orb_false_iff in HR.
          * destruct o as [y|y c|s q]; try exact HR. destruct c; try exact HR. destruct out; try exact HR.
            simpl. destruct (tid0 =? tid); exact HR.
    Qed.

    Lemma WInv_new t : WInv false (newStore t).
    Proof. split; [apply Inv_new|]. intros x t0 Hv. discriminate. Qed.
  End One.

  Lemma ran_wok h w : ran h w -> wok w.
  Proof. intros (t0 & E). apply reachable_wok. exists t0, (map fst h), (map snd h). exact E. Qed.

  Lemma ran_inv (nu : Prop) tid h w :
    FloatLib_ok X -> GobLib_ok G -> EngineTableId <= tid ->
    ran h w -> Forall op_typed (map fst h) -> (nu -> Forall no_update (map fst h)) ->
    recreated tid h = false -> WInv nu tid (dropped tid h) w.
  Proof.
    intros HX HG Ht (t0 & E) HT HN HR.
    pose proof (WInv_run nu tid h false (newStore t0) w HX HG Ht (wok_new t0) (WInv_new nu tid t0) HT HN HR E) as K.
    now rewrite orb_false_r in K.
  Qed.

  Lemma ran_base h w x t : FloatLib_ok X -> GobLib_ok G -> ran h w -> Forall op_typed (map fst h) ->
    view w x = Some t -> types_ok t /\ sorted t /\ Forall (fun tb => EngineTableId <= tb_tid tb < 2 ^ 32) (tables_of w x).
  Proof.
    intros HX HG R HT Hv.
    assert (forall tid', is_u32 tid' -> tid' =? 2 ^ 32 = false) as N by (unfold is_u32; intros; lia).
    assert (recreated (2 ^ 32) h = false) as HR.
    { clear - HT N. induction h as [|[o out] h IH]; [reflexivity|]. simpl in HT. inversion HT as [|o' l' H1 H2]; subst.
      destruct o as [y|y c|s q]; simpl; try now apply IH. destruct c; try now apply IH.
      destruct out; try now apply IH. simpl in H1. rewrite (N _ H1). now apply IH. }
    pose proof (ran_inv False (2 ^ 32) h w HX HG ltac:(unfold EngineTableId; lia) R HT ltac:(tauto) HR) as [_ K].
    destruct (K x t Hv) as [T B _]. split; [exact T|]. split; [|exact B].
    destruct (view_active w x t (ran_wok h w R) Hv) as (tx & _ & _ & (S & _)). exact S.
  Qed.

  Lemma ran_base_committed h w : FloatLib_ok X -> GobLib_ok G -> ran h w -> Forall op_typed (map fst h) ->
    types_ok (committed w) /\ sorted (committed w).
  Proof.
    intros HX HG R HT.
    assert (forall tid', is_u32 tid' -> tid' =? 2 ^ 32 = false) as N by (unfold is_u32; intros; lia).
    assert (recreated (2 ^ 32) h = false) as HR.
    { clear - HT N. induction h as [|[o out] h IH]; [reflexivity|]. simpl in HT. inversion HT as [|o' l' H1 H2]; subst.
      destruct o as [y|y c|s q]; simpl; try now apply IH. destruct c; try now apply IH.
      destruct out; try now apply IH. simpl in H1. rewrite (N _ H1). now apply IH. }
    pose proof (ran_inv False (2 ^ 32) h w HX HG ltac:(unfold EngineTableId; lia) R HT ltac:(tauto) HR) as [[T _ _] _].
    split; [exact T|]. destruct (wk_tree w (ran_wok h w R)) as (c & Hc & S). now rewrite (committed_eq w c Hc).
  Qed.
End World.
