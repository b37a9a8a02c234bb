(** Creating, opening and dropping tables. *)

From Verif Require Import ModelStore SpecTable LemmasBase LemmasKey LemmasValue LemmasIdent LemmasTree LemmasStore LemmasWorld
  LemmasHistory LemmasSerial LemmasTable LemmasContents LemmasTableFacts LemmasTableCalls.

Section Types.
  Context {X : FloatLib} {L : CaseLib} {G : GobLib}.
  Context (HX : FloatLib_ok X) (HG : GobLib_ok G).

  Lemma interns_reach i0 i1 : interns i0 i1 -> forall ths, idreach (i0, ths) ->
    exists ths', idreach (i1, ths') /\ forall s q i, returned ths s q i -> returned ths' s q i.
  Proof.
    induction 1 as [t|t s q t' _ IH]; intros ths Hr; [exists ths; auto|].
    destruct (ID t s q) as [t1 i] eqn:E. cbn [fst] in IH.
    destruct (ID_sequential t ths s q t1 i Hr E) as (ths1 & Hr1 & _ & K1).
    destruct (IH ths1 Hr1) as (ths2 & Hr2 & K2). exists ths2. auto.
  Qed.

  Lemma gob_later i0 i1 ths i : CaseLib_ok L -> interns i0 i1 -> idreach (i0, ths) -> proper_id ths i ->
    idGobDecode i1 (idGobEncode i0 i) = Some (i1, i).
  Proof.
    intros HL HI Hr (s & q & m & R & M & Hres & Hlen). destruct (interns_reach i0 i1 HI ths Hr) as (ths1 & Hr1 & K).
    assert (idGobEncode i0 i = idGobEncode i1 i) as ->.
    { unfold idGobEncode. now rewrite (string_lemma i0 ths s q i m Hr R M), (string_lemma i1 ths1 s q i m Hr1 (K _ _ _ R) M). }
    exact (gob_lemma i1 ths1 s q i m HL Hr1 (K _ _ _ R) M Hres Hlen).
  Qed.

  Lemma fromWireIds_later i0 i1 ths l : CaseLib_ok L -> interns i0 i1 -> idreach (i0, ths) -> Forall (proper_id ths) l ->
    fromWireIds i1 (map (idGobEncode i0) l) = Some (i1, l).
  Proof.
    intros HL HI Hr. induction 1 as [|i l P F IH]; cbn [map fromWireIds]; [reflexivity|].
    now rewrite (gob_later i0 i1 ths i HL HI Hr P), IH.
  Qed.

  Lemma fromWire_later i0 i1 ths ty : CaseLib_ok L -> interns i0 i1 -> idreach (i0, ths) -> Forall (proper_id ths) (names_of ty) ->
    fromWire i1 (toWire i0 ty) = Some (i1, ty).
  Proof.
    intros HL HI Hr F. unfold fromWire.
    change (wt_database (toWire i0 ty) :: wt_schema (toWire i0 ty) :: wt_table (toWire i0 ty) :: wt_cols (toWire i0 ty))
      with (map (idGobEncode i0) (names_of ty)).
    rewrite (fromWireIds_later i0 i1 ths _ HL HI Hr F). unfold names_of. destruct ty as [vn [d s n] cols types key]. reflexivity.
  Qed.

  Lemma idGob_total i0 i1 i : exists i2 j, idGobDecode i1 (idGobEncode i0 i) = Some (i2, j).
  Proof.
    unfold idGobEncode, idGobDecode. destruct (IsReserved i).
    - change (1 <? bz x01) with false. change (bz x01 =? 0) with false. cbv iota. destruct (ID i1 _ false); eauto.
    - change (1 <? bz x00) with false. change (bz x00 =? 0) with true. cbv iota. destruct (ID i1 _ true); eauto.
  Qed.

  Lemma fromWireIds_total i0 l : forall i1, exists i2 js, fromWireIds i1 (map (idGobEncode i0) l) = Some (i2, js) /\ length js = length l.
  Proof.
    induction l as [|i l IH]; intros i1; cbn [map fromWireIds]; [eauto|]. destruct (idGob_total i0 i1 i) as (i2 & j & ->).
    destruct (IH i2) as (i3 & js & -> & E). exists i3, (j :: js). simpl. auto.
  Qed.

  Lemma fromWire_total i0 i1 ty : exists i2 ty', fromWire i1 (toWire i0 ty) = Some (i2, ty').
  Proof.
    unfold fromWire.
    change (wt_database (toWire i0 ty) :: wt_schema (toWire i0 ty) :: wt_table (toWire i0 ty) :: wt_cols (toWire i0 ty))
      with (map (idGobEncode i0) (names_of ty)).
    destruct (fromWireIds_total i0 (names_of ty) i1) as (i2 & js & -> & E).
    destruct js as [|d [|s [|n cols]]]; try discriminate. eauto.
  Qed.

  Lemma step_interns w o out w' : wok w -> step w o = (out, w') -> interns (sh_idt (w_sh w)) (sh_idt (w_sh w')).
  Proof.
    intros K E. destruct o as [x|x c|s q].
    - simpl in E. destruct (find_tx (w_txs w) x); [|destruct (sh_locked (w_sh w))]; injection E as _ <-; constructor.
    - destruct (view w x) as [t|] eqn:Hv.
      + assert (c = CCommit \/ c = CRollback \/ (c <> CCommit /\ c <> CRollback)) as [Hc|[Hc|[N1 N2]]].
        { destruct c; try (right; right; split; discriminate); auto. }
        1,2: assert (sh_idt (w_sh w') = sh_idt (w_sh w)) as ->; [|constructor].
        1,2: subst c; simpl in E; destruct (find_tx (w_txs w) x) as [tx|]; [|now injection E as _ <-];
             unfold runM, Commit, Rollback, bind, getTx, getSh, complete, fail, panic, putSh, putTx, ret in E; cbn [snd fst] in E;
             destruct (negb (tx_live tx)); [now injection E as _ <-|];
             destruct (negb (tx_count tx =? 0)); [now injection E as _ <-|];
             try destruct (tx_tree tx); now injection E as _ <-.
        destruct (live_step w x t c _ w' K Hv N1 N2 E)
          as (v & v' & Es & Hok & A1 & A2 & A3 & A4 & A5 & B1 & B2 & B3 & B4 & B5 & B6).
        apply vstep_interns in Es. now rewrite A5, <- B5 in Es.
      + pose proof E as E0. apply step_cases in E0; [|exact K].
        inversion E0; subst; try constructor;
          match goal with Hs : sees _ _ |- _ =>
            exfalso; erewrite view_sees in Hv by eassumption; discriminate end.
    - simpl in E. injection E as _ <-. simpl. eapply interns_step. constructor.
  Qed.

  Lemma run_later ops : forall w outs w', wok w -> run w ops = (outs, w') -> interns (sh_idt (w_sh w)) (sh_idt (w_sh w')).
  Proof.
    induction ops as [|o ops IH]; intros w outs w' K E; simpl in E.
    - injection E as _ <-. constructor.
    - destruct (step w o) as [out w1] eqn:E1. destruct (run w1 ops) as [outs' w2] eqn:E2. injection E as _ <-.
      eapply interns_trans; [eapply step_interns; eassumption|]. apply (IH w1 outs' w2); [|exact E2].
      apply step_cases in E1; [|exact K]. eapply wok_step; eassumption.
  Qed.

  Lemma recorded_tyitem t tid i0 ty : types_ok t -> recorded t tid i0 ty <-> In (tyitem tid (toWire i0 ty)) t.
  Proof.
    intros T. unfold recorded. rewrite rows_in_of_rel. split; intros H.
    - apply in_map_iff in H as (it & E & Hi). apply of_rel_In in Hi as [Hi Er]. 
      destruct (T it Hi ltac:(lia)) as (tid' & j & ty' & _ & ->). unfold tyitem in E. cbn [it_row] in E.
      assert (tid' = tid) as -> by congruence.
      assert (x_gob_encode (toWire j ty') = x_gob_encode (toWire i0 ty)) as E' by congruence.
      unfold tyitem. rewrite <- E'. exact Hi.
    - apply in_map_iff. eexists. split; [|apply of_rel_In; split; [exact H|reflexivity]]. reflexivity.
  Qed.

  Lemma open_step h w x t tid tn cn ct p out w' :
    ran h w -> Forall op_typed (map fst h) -> view w x = Some t -> is_u32 tid ->
    step w (Call x (COpenTable tid tn cn ct p)) = (out, w') ->
    sorted t /\ types_ok t /\ view w' x = Some t /\
    exists r i', vOpenTable tid tn cn ct p (t, sh_idt (w_sh w)) = (r, (t, i')) /\
      match r with
      | Ok tb => out = ODone /\ tables_of w' x = tables_of w x ++ [tb]
      | Err e => False
      | Panic => out = OPanic /\ tables_of w' x = tables_of w x
      end.
  Proof.
    intros R HT Hv Hu E. destruct (ran_base h w x t HX HG R HT Hv) as (T & S & B). split; [exact S|]. split; [exact T|].
    destruct (live_step w x t (COpenTable tid tn cn ct p) _ w' (ran_wok h w R) Hv ltac:(discriminate) ltac:(discriminate) E)
      as (v & v' & Es & Hok & A1 & A2 & A3 & A4 & A5 & B1 & B2 & B3 & B4 & B5 & B6).
    simpl in Es. unfold vrun in Es. rewrite A1, A5 in Es.
    destruct (vOpenTable tid tn cn ct p (t, sh_idt (w_sh w))) as [r [t1 i1]] eqn:Er.
    pose proof Er as Er'. apply (openTable_eff tid tn cn ct p t _ r t1 i1 HG Hu S T) in Er' as [-> Hr].
    destruct r as [tb|e|]; [|contradiction|]; injection Es as <- <-; simpl in *; rewrite ?A2 in B2;
      (split; [exact B1|]); eexists; eexists; (split; [reflexivity|]); (split; [reflexivity|]); exact B2.
  Qed.

  (** A table that is opened is there, and has the attributes. *)
  Lemma open_sound h w x t tid tn cn ct p w' :
    ran h w -> Forall op_typed (map fst h) -> view w x = Some t -> is_u32 tid ->
    step w (Call x (COpenTable tid tn cn ct p)) = (ODone, w') ->
    view w' x = Some t /\ exists_in t tid /\
    exists ty, matches ty tn cn ct p /\ tables_of w' x = tables_of w x ++ [{| tb_tid := tid; tb_tt := ty |}].
  Proof.
    intros R HT Hv Hu E. destruct (open_step h w x t tid tn cn ct p _ w' R HT Hv Hu E) as (S & T & V & r & i' & Er & Hr).
    apply (openTable_eff tid tn cn ct p t _ r t i' HG Hu S T) in Er as [_ He].
    destruct r as [tb|e|]; [|contradiction|now destruct Hr].
    destruct He as (wt & Hw & _ & E1 & M). split; [exact V|]. split; [apply (exists_tyitem t tid T Hu); eauto|].
    exists (tb_tt tb). split; [exact M|]. destruct Hr as [_ ->]. f_equal. f_equal. destruct tb. simpl in *. congruence.
  Qed.

  Lemma open_missing h w x t tid tn cn ct p :
    ran h w -> Forall op_typed (map fst h) -> view w x = Some t -> is_u32 tid -> ~ exists_in t tid ->
    fst (step w (Call x (COpenTable tid tn cn ct p))) = OPanic.
  Proof.
    intros R HT Hv Hu N. destruct (step w (Call x (COpenTable tid tn cn ct p))) as [out w'] eqn:E. cbn [fst].
    destruct (open_step h w x t tid tn cn ct p _ w' R HT Hv Hu E) as (S & T & V & r & i' & Er & Hr).
    apply (openTable_eff tid tn cn ct p t _ r t i' HG Hu S T) in Er as [_ He].
    destruct r as [tb|e|]; [|contradiction|now destruct Hr].
    destruct He as (wt & Hw & _). exfalso. apply N. apply (exists_tyitem t tid T Hu). eauto.
  Qed.

  (** Opening after creating. *)
  Lemma open_interns h i0 ths w2 x t tid ty tn cn ct p :
    CaseLib_ok L -> ran h w2 -> Forall op_typed (map fst h) ->
    interns i0 (sh_idt (w_sh w2)) -> idreach (i0, ths) -> Forall (proper_id ths) (names_of ty) ->
    view w2 x = Some t -> is_u32 tid -> recorded t tid i0 ty ->
    (matches ty tn cn ct p ->
       exists w', step w2 (Call x (COpenTable tid tn cn ct p)) = (ODone, w') /\ view w' x = Some t /\
         tables_of w' x = tables_of w2 x ++ [{| tb_tid := tid; tb_tt := ty |}]) /\
    (~ matches ty tn cn ct p -> fst (step w2 (Call x (COpenTable tid tn cn ct p))) = OPanic).
  Proof.
    intros HL R HT HI Hr Hp Hv Hu Hrec.
    destruct (step w2 (Call x (COpenTable tid tn cn ct p))) as [out w'] eqn:E. cbn [fst].
    destruct (open_step h w2 x t tid tn cn ct p _ w' R HT Hv Hu E) as (S & T & V & r & i' & Er & Hr').
    pose proof Er as He. apply (openTable_eff tid tn cn ct p t _ r t i' HG Hu S T) in He as [_ He].
    apply (recorded_tyitem t tid _ ty T) in Hrec.
    pose proof (fromWire_later i0 (sh_idt (w_sh w2)) ths ty HL HI Hr Hp) as Fw.
    destruct r as [tb|e|]; [|contradiction|].
    - destruct He as (wt & Hw & Fw' & E1 & M). rewrite (tyitem_unique t tid wt _ HG S Hw Hrec), Fw in Fw'.
      injection Fw' as <- Ety. destruct Hr' as [-> Htb]. split.
      + intros _. exists w'. split; [reflexivity|]. split; [exact V|]. rewrite Htb. f_equal. f_equal.
        destruct tb. simpl in *. congruence.
      + intros N. exfalso. apply N. rewrite Ety. exact M.
    - destruct Hr' as [-> Htb]. split; [|reflexivity]. intros M. exfalso.
      unfold vOpenTable, vbind in Er. destruct (vGetTableType tid (t, sh_idt (w_sh w2))) as [r1 [t1 i1]] eqn:E1.
      apply (getTableType_eff tid t _ r1 t1 i1 HG Hu S T) in E1 as [-> E1]. destruct r1 as [[ty'|]|e|].
      + destruct E1 as (wt & Hw & Fw'). rewrite (tyitem_unique t tid wt _ HG S Hw Hrec), Fw in Fw'. injection Fw' as <- <-.
        destruct M as (M1 & M2 & M3 & M4). subst tn cn ct p.
        rewrite (proj2 (tablename_eqb_eq _ _) eq_refl), (proj2 (list_eqb_eq _ Z.eqb_eq _ _) eq_refl),
          (proj2 (list_eqb_eq _ coltype_eqb_eq _ _) eq_refl), (proj2 (list_eqb_eq _ Z.eqb_eq _ _) eq_refl) in Er.
        simpl in Er. discriminate.
      + destruct E1 as [_ N]. now apply N in Hrec.
      + contradiction.
      + destruct E1 as (wt & Hw & Fw'). rewrite (tyitem_unique t tid wt _ HG S Hw Hrec), Fw in Fw'. discriminate.
  Qed.

  Lemma open_iff h w ths ops outs w2 x t tid ty tn cn ct p :
    CaseLib_ok L -> ran h w2 -> Forall op_typed (map fst h) ->
    wok w -> run w ops = (outs, w2) -> idreach (sh_idt (w_sh w), ths) -> Forall (proper_id ths) (names_of ty) ->
    view w2 x = Some t -> is_u32 tid -> recorded t tid (sh_idt (w_sh w)) ty ->
    (matches ty tn cn ct p ->
       exists w', step w2 (Call x (COpenTable tid tn cn ct p)) = (ODone, w') /\ view w' x = Some t /\
         tables_of w' x = tables_of w2 x ++ [{| tb_tid := tid; tb_tt := ty |}]) /\
    (~ matches ty tn cn ct p -> fst (step w2 (Call x (COpenTable tid tn cn ct p))) = OPanic).
  Proof.
    intros HL R HT K Hrun. apply (open_interns h (sh_idt (w_sh w)) ths w2 x t tid ty tn cn ct p HL R HT).
    exact (run_later ops w outs w2 K Hrun).
  Qed.

  (** ** Creating *)
  Lemma create_records h w x t tid tn cn ct p w' :
    ran h w -> Forall op_typed (map fst h) -> view w x = Some t -> is_u32 tid ->
    step w (Call x (CCreateTable tid tn cn ct p)) = (ODone, w') ->
    exists t' k, p = Some k /\ view w' x = Some t' /\ ~ exists_in t tid /\
      let ty := {| tt_version := 1; tt_name := tn; tt_cols := cn; tt_types := ct; tt_key := k |} in
      recorded t' tid (sh_idt (w_sh w)) ty /\
      Permutation (rows_in t' 0) ([VInt tid; VBytes (x_gob_encode (toWire (sh_idt (w_sh w)) ty))] :: rows_in t 0) /\
      only_table 0 t t'.
  Proof.
    intros R HT Hv Hu E. destruct (create_step HX HG h w x t tid tn cn ct p _ w' R HT Hv Hu E) as (S & T & t' & r & i' & Er & V & Ho & _).
    apply (createTable_eff tid tn cn ct p t _ r t' i' HG Hu S T) in Er.
    destruct r as [[]|e|]; try discriminate. destruct Er as [(_ & N & _)|(_ & He & -> & Nt & _ & k & -> & _ & _ & ->)]; [contradiction|].
    eexists. exists k. split; [reflexivity|]. split; [exact V|]. split.
    { intros H. apply (exists_tyitem t tid T Hu) in H as (wt & Hw). now apply Nt in Hw. }
    cbv zeta. set (it := tyitem tid _).
    assert (t_has t it = false) as Hh.
    { destruct (t_has t it) eqn:Hh; [|reflexivity]. exfalso. apply t_has_true in Hh as (y & Hy & Ey).
      apply icmp_eq in Ey as [E1 E2]. simpl in E1, E2. destruct (T y Hy E1) as (tid' & j & ty' & Ht' & ->). simpl in E2.
      apply tidkey_inj in E2; [|now apply engine_i64|now apply u32_i64]. subst tid'. exact (Nt _ Hy). }
    split; [|split].
    - unfold recorded. rewrite rows_in_of_rel. apply in_map_iff. exists it. split; [reflexivity|].
      apply of_rel_In. split; [|reflexivity]. apply insert_In; [exact S|]. now left.
    - rewrite !rows_in_of_rel. rewrite (perm_filter (fun it => it_rel it =? 0 * 2 ^ 32) _ _ (insert_perm t it Hh) : Permutation (of_rel _ _) _).
      reflexivity.
    - intros tid' H0 N. rewrite !rows_in_of_rel. f_equal. apply insert_other. simpl. lia.
  Qed.

  Lemma badRowId_iff cn ct p : length cn = length ct -> badRowId 0 cn ct p = false <-> rowid_ok cn ct p.
  Proof.
    intros Hl.
    assert (forall l idx, badRowId idx l ct p = false <->
      forall i, nth_error l i = Some ROWID -> (idx + i = 0)%nat /\ coltype_eqb (nth 0 ct Int64ColType) Int64ColType = true /\ p = [MakeColumnKey 0 false]) as H.
    { induction l as [|c l IH]; intros idx; cbn [badRowId].
      - split; [intros _ [|i]; discriminate|reflexivity].
      - rewrite orb_false_iff, IH. split.
        + intros [H1 H2] [|i] Hi.
          * simpl in Hi. injection Hi as ->. rewrite Z.eqb_refl in H1. cbn [andb] in H1.
            apply orb_false_iff in H1 as [H1 H3]. apply orb_false_iff in H1 as [H1 H4].
            apply negb_false_iff in H1, H3, H4. apply Nat.eqb_eq in H1. apply (list_eqb_eq _ Z.eqb_eq) in H3.
            split; [lia|]. auto.
          * simpl in Hi. destruct (H2 i Hi) as (? & _). lia.
        + intros H. split.
          * destruct (Z.eqb_spec c ROWID) as [->|]; [|reflexivity]. destruct (H 0%nat eq_refl) as (A & B & C). cbn [andb].
            assert (idx = 0%nat) as -> by lia. rewrite B, (proj2 (list_eqb_eq _ Z.eqb_eq _ _) C). reflexivity.
          * intros i Hi. destruct (H (S i) Hi) as (A & _). lia. }
    rewrite H. unfold rowid_ok. split; intros K i Hi; destruct (K i Hi) as (A & B & C).
    - simpl in A. split; [lia|]. split; [|exact C]. apply coltype_eqb_eq in B.
      destruct ct as [|c0 ct]; [|simpl in *; now rewrite B]. destruct cn; [destruct i; discriminate|discriminate].
    - split; [lia|]. split; [|exact C]. apply coltype_eqb_eq. destruct ct as [|c0 ct]; [discriminate|]. simpl in *. congruence.
  Qed.

  Lemma create_outcome h w x t tid tn cn ct kc :
    ran h w -> Forall op_typed (map fst h) -> view w x = Some t -> is_u32 tid -> small_cols kc ->
    let out := fst (step w (Call x (CCreateTable tid tn cn ct (Some (keys_of kc))))) in
    (exists_in t tid -> out = OPanic) /\
    (~ exists_in t tid -> EngineTableId <= tid -> length cn = length ct ->
       (~ rowid_ok cn ct (keys_of kc) -> out = OErr ErrRowIdColumn) /\
       (rowid_ok cn ct (keys_of kc) -> Forall (fun cd => (fst cd < length cn)%nat) kc -> out = ODone)).
  Proof.
    intros R HT Hv Hu Sm out. subst out. destruct (step w _) as [out w'] eqn:E. cbn [fst].
    destruct (create_step HX HG h w x t tid tn cn ct _ _ w' R HT Hv Hu E) as (S & T & t' & r & i' & Er & V & -> & _).
    pose proof (createTable_eff tid tn cn ct _ t _ r t' i' HG Hu S T Er) as He.
    pose proof (exists_tyitem t tid T Hu) as Hx. split.
    - intros H. apply Hx in H as (wt & Hw). destruct He as [(_ & N & P)|(-> & _ & _ & N & _)]; [|now apply N in Hw].
      rewrite (proj2 P); [reflexivity|]. eauto.
    - intros N Ht Hl. split.
      + intros Hb. destruct He as [(_ & N1 & P)|(-> & _ & _ & _ & _ & k & [= <-] & B & _)].
        2:{ apply (badRowId_iff cn ct _ Hl) in B. contradiction. }
        unfold vCreateTable in Er. destruct (Z.ltb_spec tid EngineTableId); [lia|]. unfold vbind at 1 in Er.
        destruct (vGetTableType tid (t, sh_idt (w_sh w))) as [r1 [t1 i1]] eqn:E1.
        apply (getTableType_eff tid t _ r1 t1 i1 HG Hu S T) in E1 as [-> E1].
        destruct r1 as [[ty'|]|e|]; [exfalso; destruct E1 as (wt & Hw & _); apply N, Hx; eauto| |contradiction|
          exfalso; destruct E1 as (wt & Hw & _); apply N, Hx; eauto].
        assert (zlen cn =? zlen ct = true) as Hz by (unfold zlen; lia). rewrite Hz in Er. cbn [negb] in Er.
        destruct (badRowId 0 cn ct (keys_of kc)) eqn:Eb; [injection Er as <- _ _; reflexivity|].
        apply (badRowId_iff cn ct _ Hl) in Eb. contradiction.
      + intros Hb Hc. apply (badRowId_iff cn ct _ Hl) in Hb.
        assert (existsb (fun ck => zlen cn <=? ckColumn ck) (keys_of kc) = false) as He0.
        { clear - Sm Hc. induction kc as [|[c d] kc IH]; [reflexivity|]. inversion Sm; inversion Hc; subst. simpl in *.
          destruct (column_key_round_trip_lemma (Z.of_nat c) d) as (Ec & _); [lia|]. rewrite Ec, IH by assumption.
          unfold zlen. lia. }
        destruct He as [(_ & N1 & P)|(-> & _)]; [|reflexivity]. exfalso.
        unfold vCreateTable in Er. destruct (Z.ltb_spec tid EngineTableId); [lia|]. unfold vbind at 1 in Er.
        destruct (vGetTableType tid (t, sh_idt (w_sh w))) as [r1 [t1 i1]] eqn:E1.
        apply (getTableType_eff tid t _ r1 t1 i1 HG Hu S T) in E1 as [-> E1].
        destruct r1 as [[ty'|]|e|]; [exfalso; destruct E1 as (wt & Hw & _); apply N, Hx; eauto| |contradiction|
          exfalso; destruct E1 as (wt & Hw & _); apply N, Hx; eauto].
        assert (zlen cn =? zlen ct = true) as Hz by (unfold zlen; lia). rewrite Hz in Er. cbn [negb] in Er.
        rewrite Hb, He0 in Er.
        unfold vSetTableType, vbind, vgetI, vlift, rowToItem in Er.
        rewrite table_types_relation, tidkey_MakeKey in Er. unfold vret, vread, vwrite in Er. cbn [fst snd] in Er.
        injection Er as <- _ _. now apply N1.
  Qed.

  (** ** Dropping *)
  Lemma drop_exact h w x t tid :
    ran h w -> Forall op_typed (map fst h) -> view w x = Some t -> is_u32 tid ->
    let out := fst (step w (Call x (CDropTable tid))) in
    let w' := snd (step w (Call x (CDropTable tid))) in
    (exists_in t tid -> out = ODone /\ exists t', view w' x = Some t' /\ ~ exists_in t' tid /\ only_table 0 t t' /\
       exists b, Permutation (rows_in t 0) ([VInt tid; VBytes b] :: rows_in t' 0)) /\
    (~ exists_in t tid -> out = OPanic /\ view w' x = Some t).
  Proof.
    intros R HT Hv Hu out w'. subst out w'. destruct (step w (Call x (CDropTable tid))) as [out w'] eqn:E. cbn [fst snd].
    destruct (ran_base h w x t HX HG R HT Hv) as (T & S & B).
    destruct (live_step w x t (CDropTable tid) _ w' (ran_wok h w R) Hv ltac:(discriminate) ltac:(discriminate) E)
      as (v & v' & Es & Hok & A1 & A2 & A3 & A4 & A5 & B1 & B2 & B3 & B4 & B5 & B6).
    simpl in Es. unfold vrun in Es. rewrite A1, A5 in Es.
    destruct (vDropTable tid (t, sh_idt (w_sh w))) as [r [t1 i1]] eqn:Er.
    apply (dropTable_eff tid t _ r t1 i1 HG Hu S T) in Er.
    pose proof (exists_tyitem t tid T Hu) as Hx. split.
    - intros H. pose proof (proj1 Hx H) as (wt & Hw). destruct Er as [(-> & -> & Hn)|(-> & _ & ->)].
      + exfalso. specialize (Hn wt Hw). destruct (T _ Hw eq_refl) as (tid' & j & ty' & _ & K).
        pose proof (f_equal it_row K) as K'. cbn [tyitem it_row] in K'.
        assert (x_gob_encode wt = x_gob_encode (toWire j ty')) as Kw by congruence.
        apply (f_equal x_gob_decode) in Kw. rewrite !HG in Kw. injection Kw as ->.
        destruct (fromWire_total j (sh_idt (w_sh w)) ty') as (? & ? & F). congruence.
      + injection Es as <- <-. split; [reflexivity|]. set (kit := keyToItem 0 (tidkey tid)) in *.
        set (t1 := fst (t_delete t kit)) in *. simpl in B1. exists t1. split; [exact B1|].
        assert (t_get t kit = Some (tyitem tid wt)) as Hg.
        { apply t_get_In; [exact S|exact Hw|]. apply icmp_eq. now split. }
        split; [|split].
        * intros (b & Hi). rewrite rows_in_of_rel in Hi. apply in_map_iff in Hi as (it & Eit & Hi).
          apply of_rel_In in Hi as [Hi Eri]. apply delete_In in Hi as [Hi Ni]; [|exact S].
          destruct (T it Hi ltac:(lia)) as (tid' & j & ty' & _ & ->). cbn [tyitem it_row] in Eit.
          assert (tid' = tid) as -> by congruence. apply Ni, icmp_eq. now split.
        * intros tid' H0 N. rewrite !rows_in_of_rel. f_equal. apply delete_other. simpl. lia.
        * destruct (replace_perm t kit _ S Hg) as (rest & P1 & _ & P3). fold t1 in P3. exists (x_gob_encode wt).
          rewrite !rows_in_of_rel.
          rewrite (perm_filter (fun it => it_rel it =? 0 * 2 ^ 32) _ _ P1 : Permutation (of_rel _ t) _).
          rewrite (perm_filter (fun it => it_rel it =? 0 * 2 ^ 32) _ _ P3 : Permutation (of_rel _ t1) _). reflexivity.
    - intros N. destruct Er as [(-> & -> & _)|(_ & (wt & ty & Hw & _) & _)].
      + injection Es as <- <-. split; [reflexivity|exact B1].
      + exfalso. apply N, Hx. eauto.
  Qed.

  (** ** What is recorded stays *)
  Lemma recorded_stays h w x t o out w' t' tid i0 ty :
    ran h w -> Forall op_typed (map fst h) -> op_typed o -> is_u32 tid ->
    view w x = Some t -> recorded t tid i0 ty -> step w o = (out, w') ->
    ~ (o = Call x (CDropTable tid) /\ out = ODone) -> view w' x = Some t' -> recorded t' tid i0 ty.
  Proof.
    intros R HT Ho Hu Hv Hrec E N Hv'. destruct (ran_base h w x t HX HG R HT Hv) as (T & S & B).
    pose proof (ran_wok h w R) as K.
    assert (forall y c, o = Call y c -> y <> x -> view w' x = view w x) as Other.
    { intros y c -> Ny. apply (view_other w (Call y c) out w' x); try exact E.
      - destruct R as (t0 & R). exists t0, (map fst h), (map snd h). exact R.
      - destruct (view_active w x t K Hv) as (tx & F & Hs & _). exists tx. split; [exact F|]. exact (sees_live _ _ Hs).
      - intros (c' & [= -> _]). contradiction. }
    destruct o as [y|y c|s q].
    - assert (view w' x = view w x) as Eq.
      { simpl in E. destruct (find_tx (w_txs w) y) eqn:Fy; [now injection E as _ <-|]. destruct (sh_locked (w_sh w)); injection E as _ <-; [reflexivity|].
        unfold view in *. simpl. rewrite find_app. destruct (find_tx (w_txs w) x) as [tx|]; [reflexivity|discriminate]. }
      rewrite Eq, Hv in Hv'. now injection Hv' as <-.
    - destruct (Nat.eq_dec y x) as [->|Ny].
      2:{ rewrite (Other y c eq_refl Ny), Hv in Hv'. now injection Hv' as <-. }
      assert (c = CCommit \/ c = CRollback \/ (c <> CCommit /\ c <> CRollback)) as [Hc|[Hc|[N1 N2]]].
      { destruct c; try (right; right; split; discriminate); auto. }
      1,2: subst c; simpl in E; destruct (view_active w x t K Hv) as (tx & F & Hs & _); rewrite F in E;
        unfold runM, Commit, Rollback, bind, getTx, getSh, complete, fail, panic, putSh, putTx, ret in E; cbn [snd fst] in E;
        pose proof (sees_live _ _ Hs) as Lv; simpl in Lv; rewrite Lv in E; cbn [negb] in E;
        (destruct (negb (tx_count tx =? 0));
         [injection E as _ <-; unfold view in Hv'; simpl in Hv'; rewrite (set_same _ _ _ F) in Hv'; fold (view w x) in Hv'; rewrite Hv in Hv'; now injection Hv' as <-|]);
        try (destruct (tx_tree tx);
             [|injection E as _ <-; unfold view in Hv'; simpl in Hv'; rewrite (set_same _ _ _ F) in Hv'; fold (view w x) in Hv'; rewrite Hv in Hv'; now injection Hv' as <-]);
        injection E as _ <-; unfold view in Hv'; simpl in Hv'; rewrite find_set, F, Nat.eqb_refl in Hv'; discriminate.
      destruct (live_step w x t c _ w' K Hv N1 N2 E)
        as (v & v' & Es & Hok & A1 & A2 & A3 & A4 & A5 & B1 & B2 & B3 & B4 & B5 & B6).
      rewrite B1 in Hv'. injection Hv' as <-.
      assert (v_tree v' = v_tree v -> recorded (v_tree v') tid i0 ty) as Same by (rewrite A1; intros ->; exact Hrec).
      assert (forall tb', In tb' (tables_of w x) -> EngineTableId <= tb_tid tb' /\ toRelationId (tb_tid tb') = tb_tid tb' * 2 ^ 32) as HB.
      { intros tb' Hb. pose proof (proj1 (Forall_forall _ _) B tb' Hb) as Hk. simpl in Hk. split; [lia|].
        apply toRelationId_small. unfold EngineTableId, is_u32 in *. lia. }
      assert (forall tid', EngineTableId <= tid' -> only_table tid' (v_tree v) (v_tree v') -> recorded (v_tree v') tid i0 ty) as Only.
      { intros tid' He Hot. unfold recorded. rewrite (Hot 0 ltac:(lia) ltac:(unfold EngineTableId in He; lia)), A1. exact Hrec. }
      assert (forall t1, (forall it, it_rel it = 0 -> In it t -> In it t1) -> recorded t1 tid i0 ty) as Keep.
      { intros t1 H. apply (recorded_tyitem t tid i0 ty T) in Hrec. unfold recorded. rewrite rows_in_of_rel.
        apply in_map_iff. exists (tyitem tid (toWire i0 ty)). split; [reflexivity|]. apply of_rel_In. split; [|reflexivity].
        apply H; [reflexivity|exact Hrec]. }
      destruct c as [t0 tn cn ct p|t0 tn cn ct p|t0| | | |i|i cols mn mx p|i rs|i|i|i|i cols vals|i]; simpl in Es.
      + unfold vrun in Es. rewrite A1, A5 in Es. destruct (vOpenTable _ _ _ _ _ _) as [r [t1 i1]] eqn:Er.
        apply (openTable_eff t0 tn cn ct p t _ r t1 i1 HG Ho S T) in Er as [-> _].
        apply Same. rewrite A1. destruct r; injection Es as _ <-; reflexivity.
      + unfold vrun in Es. rewrite A1, A5 in Es. destruct (vCreateTable _ _ _ _ _ _) as [r [t1 i1]] eqn:Er.
        destruct Ho as (Ho & _). apply (createTable_eff t0 tn cn ct p t _ r t1 i1 HG Ho S T) in Er.
        assert (v_tree v' = t1) as -> by (destruct r as [[]|e|]; injection Es as _ <-; reflexivity).
        destruct Er as [(-> & _)|(_ & _ & _ & Nt & _ & k & _ & _ & _ & ->)]; [exact Hrec|].
        apply Keep. intros it E0 Hi. apply insert_In; [exact S|].
        destruct (icmp it (tyitem t0 (toWire (sh_idt (w_sh w)) {| tt_version := 1; tt_name := tn; tt_cols := cn; tt_types := ct; tt_key := k |}))) eqn:Ec;
          try (right; split; [exact Hi|discriminate]).
        exfalso. apply icmp_eq in Ec as [_ Ec]. destruct (T it Hi E0) as (tid' & j & ty' & Ht' & ->). simpl in Ec.
        apply tidkey_inj in Ec; [|now apply engine_i64|now apply u32_i64]. subst tid'. exact (Nt _ Hi).
      + unfold vrun in Es. rewrite A1, A5 in Es. destruct (vDropTable _ _) as [r [t1 i1]] eqn:Er.
        apply (dropTable_eff t0 t _ r t1 i1 HG Ho S T) in Er.
        destruct Er as [(-> & -> & _)|(-> & _ & ->)]; injection Es as <- <-.
        * exact Hrec.
        * simpl. apply (recorded_tyitem t tid i0 ty T) in Hrec. unfold recorded. rewrite rows_in_of_rel.
          apply in_map_iff. exists (tyitem tid (toWire i0 ty)). split; [reflexivity|]. apply of_rel_In. split; [|reflexivity].
          apply delete_In; [exact S|]. split; [exact Hrec|]. rewrite icmp_eq. simpl. intros [_ Ec].
          apply tidkey_inj in Ec; [|now apply u32_i64|now apply u32_i64]. subst t0. apply N. auto.
      + contradiction.
      + contradiction.
      + injection Es as _ <-. now apply Same.
      + destruct (nth_error _ i); injection Es as _ <-; now apply Same.
      + destruct (nth_error (v_tables v) i) as [tb|]; [|injection Es as _ <-; now apply Same].
        unfold vrun in Es. rewrite A1 in Es. destruct (vRows tb mn mx p _) as [r [t1 i1]] eqn:Er.
        apply (rows_eff tb mn mx p t _ _ _ _ S) in Er as (-> & _). apply Same. rewrite A1. destruct r; injection Es as _ <-; reflexivity.
      + destruct (nth_error (v_tables v) i) as [tb|] eqn:En; [|injection Es as _ <-; now apply Same].
        rewrite A2 in En. destruct (HB tb (nth_error_In _ _ En)) as [H1 H2].
        unfold vrun in Es. rewrite A1 in Es. destruct (vInsertRows tb rs _) as [r [t1 i1]] eqn:Er.
        apply insertRows_eff in Er as (-> & rs1 & rs2 & its & -> & F & A & _).
        assert (v_tree v' = t1) as -> by (destruct r as [[]|e|]; injection Es as _ <-; reflexivity).
        apply Keep. intros it _ Hi. apply (added_In _ _ _ it A). now right.
      + apply Same. destruct (nth_error (v_rows v) i) as [rs|]; [|now injection Es as _ <-].
        destruct (rs_next rs <? 0); [now injection Es as _ <-|]. destruct (rs_next rs =? _); [now injection Es as _ <-|].
        destruct (znth _ _); now injection Es as _ <-.
      + apply Same. destruct (nth_error (v_rows v) i) as [rs|]; [|now injection Es as _ <-].
        destruct (rs_next rs <=? 0); [now injection Es as _ <-|]. destruct (znth _ _); now injection Es as _ <-.
      + apply Same. destruct (nth_error (v_rows v) i) as [rs|]; [|now injection Es as _ <-].
        destruct (rs_next rs <? 0); now injection Es as _ <-.
      + destruct (nth_error (v_refs v) i) as [rr|]; [|injection Es as _ <-; now apply Same].
        destruct (nth_error (v_tables v) (rr_tbl rr)) as [tb|] eqn:En; [|injection Es as _ <-; now apply Same].
        rewrite A2 in En. destruct (HB tb (nth_error_In _ _ En)) as [H1 H2].
        unfold vrun in Es. rewrite A1 in Es. destruct (vUpdate tb _ cols vals _) as [r [t1 i1]] eqn:Er.
        assert (v_tree v' = t1) as -> by (destruct r as [[]|e|]; injection Es as _ <-; reflexivity).
        apply (update_eff tb _ _ _ _ _ _ _ _ S) in Er as (_ & Er).
        destruct Er as [(-> & _)|(y & ra & _ & _ & _ & [(_ & Ei)|(_ & _ & k' & _ & ->)])]; [exact Hrec| |].
        * apply insertRows_eff in Ei as (_ & rs1 & rs2 & its & _ & F & A & _).
          apply Keep. intros it E0 Hi. apply (added_In _ _ _ it A). right. apply delete_In; [exact S|].
          split; [exact Hi|]. rewrite icmp_eq. simpl. rewrite H2. unfold EngineTableId in H1. lia.
        * apply Keep. intros it E0 Hi. apply insert_In; [exact S|]. right. split; [exact Hi|].
          rewrite icmp_eq. simpl. rewrite H2. unfold EngineTableId in H1. lia.
      + destruct (nth_error (v_refs v) i) as [rr|]; [|injection Es as _ <-; now apply Same].
        destruct (nth_error (v_tables v) (rr_tbl rr)) as [tb|] eqn:En; [|injection Es as _ <-; now apply Same].
        rewrite A2 in En. destruct (HB tb (nth_error_In _ _ En)) as [H1 H2].
        unfold vrun in Es. rewrite A1 in Es. destruct (vDelete tb _ _) as [r [t1 i1]] eqn:Er.
        assert (v_tree v' = t1) as -> by (destruct r as [[]|e|]; injection Es as _ <-; reflexivity).
        apply delete_eff in Er as (_ & -> & _).
        apply Keep. intros it E0 Hi. apply delete_In; [exact S|]. split; [exact Hi|]. rewrite icmp_eq. simpl. rewrite H2. unfold EngineTableId in H1. lia.
    - simpl in E. injection E as _ <-. unfold view in *. simpl in Hv'. rewrite Hv in Hv'. now injection Hv' as <-.
  Qed.
End Types.

(** Wrappers for the statements of the properties. *)
Lemma table_keyed {X : FloatLib} {L : CaseLib} {G : GobLib} : FloatLib_ok X -> GobLib_ok G -> forall h w x t tb,
  orderly (tb_tid tb) h w -> view w x = Some t -> In tb (tables_of w x) -> exists kc, keyed tb kc.
Proof. intros HX HG h w x t tb O V I. destruct (table_known HX HG _ _ _ _ _ O V I) as (kc & K & _). now exists kc. Qed.

Lemma open_exact {X : FloatLib} {L : CaseLib} {G : GobLib} : FloatLib_ok X -> GobLib_ok G -> CaseLib_ok L ->
  forall h w ths ops outs w2 x t tid ty tn cn ct p,
    ran h w2 -> Forall op_typed (map fst h) ->
    reachable w -> run w ops = (outs, w2) -> idreach (sh_idt (w_sh w), ths) -> Forall (proper_id ths) (names_of ty) ->
    view w2 x = Some t -> is_u32 tid -> recorded t tid (sh_idt (w_sh w)) ty ->
    (matches ty tn cn ct p ->
       exists w', step w2 (Call x (COpenTable tid tn cn ct p)) = (ODone, w') /\ view w' x = Some t /\
         tables_of w' x = tables_of w2 x ++ [{| tb_tid := tid; tb_tt := ty |}]) /\
    (~ matches ty tn cn ct p -> fst (step w2 (Call x (COpenTable tid tn cn ct p))) = OPanic).
Proof.
  intros HX HG HL h w ths ops outs w2 x t tid ty tn cn ct p Rh F Rw. intros.
  eapply (open_iff HX HG); eauto. now apply reachable_wok.
Qed.
