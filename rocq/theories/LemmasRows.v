(** Row sets. *)

From Verif Require Import ModelStore SpecStore LemmasBase LemmasTree LemmasStore LemmasWorld LemmasHistory LemmasSerial.

Lemma znth_project cols r : projectRow cols r = project (Some cols) r.
Proof.
  induction cols as [|c cols IH]; [reflexivity|]. simpl projectRow. rewrite IH. simpl.
  destruct ((0 <=? c) && (c <? zlen r)) eqn:E; simpl.
  - apply andb_true_iff in E as [E1 E2]. apply Z.leb_le in E1. apply Z.ltb_lt in E2.
    assert (znth r c = Some (nth (Z.to_nat c) r VNull)) as ->.
    { unfold znth. destruct (c <? 0) eqn:E; [apply Z.ltb_lt in E; lia|].
      apply nth_error_nth'. unfold zlen in E2. lia. }
    destruct (forallb _ cols); reflexivity.
  - destruct (znth r c) eqn:Ez; [|reflexivity]. apply znth_Some in Ez. exfalso.
    apply andb_false_iff in E as [E|E]; [apply Z.leb_gt in E|apply Z.ltb_ge in E]; lia.
Qed.

Section Rows.
  Context {X : FloatLib} {L : CaseLib} {G : GobLib}.

  (** What a step does to an open row set. *)
  Lemma open_step w o out w' x tx i rs :
    wok w -> wstep w o out w' -> find_tx (w_txs w) x = Some tx -> tx_live tx = true ->
    nth_error (tx_rows tx) i = Some rs -> 0 <= rs_next rs -> o <> Call x (CClose i) ->
    exists tx' rs', find_tx (w_txs w') x = Some tx' /\ tx_live tx' = true /\
      nth_error (tx_rows tx') i = Some rs' /\
      rs_items rs' = rs_items rs /\ rs_cols rs' = rs_cols rs /\ rs_tbl rs' = rs_tbl rs /\
      (o <> Call x (CNext i) -> rs_next rs' = rs_next rs) /\
      (o = Call x (CNext i) ->
         out = yields rs (Z.to_nat (rs_next rs)) /\ rs_next rs' = Z.min (rs_next rs + 1) (zlen (rs_items rs))).
  Proof.
    intros K E F0 L0 Hi Ho Nc.
    assert (o <> Call x (CNext i) -> find_tx (w_txs w') x = Some tx ->
      exists tx' rs', find_tx (w_txs w') x = Some tx' /\ tx_live tx' = true /\
      nth_error (tx_rows tx') i = Some rs' /\
      rs_items rs' = rs_items rs /\ rs_cols rs' = rs_cols rs /\ rs_tbl rs' = rs_tbl rs /\
      (o <> Call x (CNext i) -> rs_next rs' = rs_next rs) /\
      (o = Call x (CNext i) ->
         out = yields rs (Z.to_nat (rs_next rs)) /\ rs_next rs' = Z.min (rs_next rs + 1) (zlen (rs_items rs)))) as Same.
    { intros Nn F1. exists tx, rs. do 3 (split; [assumption|]). do 3 (split; [reflexivity|]). split; [reflexivity|]. congruence. }
    destruct E as [y U F|y U F|y ty U|y c0 U|y c0 ty out U D Od|y c0 ty t out sh' tx' t' Hf Hs Hv N1 N2 Ev Hs' SF
      |y c0 ty t Hf Hs Hv Hc0 C0|y c0 ty t h n Hf Hs Hv C0 Ht Hc0|s q]; try (apply Same; [discriminate|exact F0]).
    - exfalso. rewrite (wk_free w K F x tx F0) in L0. discriminate.
    - apply Same; [|exact F0]. unfold unused in U. intros [= -> ->]. congruence.
    - apply Same; [|exact F0]. intros [= -> ->]. destruct D as (D & _). congruence.
    - pose proof (live_unique w x tx y ty K F0 L0 Hf (sees_live _ _ Hs)) as ->.
      assert (ty = tx) as -> by congruence.
      assert (find_tx (set_tx (w_txs w) x tx') x = Some tx') as F'.
      { rewrite find_set, F0, Nat.eqb_refl. reflexivity. }
      pose proof (sees_live _ _ Hs') as L'. simpl in L'.
      pose proof Hv as (_ & _ & Rk & _). simpl in Rk.
      pose proof (proj1 (Forall_forall _ _) Rk rs (nth_error_In _ _ Hi)) as Rrs. unfold rs_ok in Rrs.
      simpl w_txs. exists tx'.
      assert (Call x c0 <> Call x (CNext i) -> tx_rows tx' = tx_rows tx \/
        (exists r, tx_rows tx' = tx_rows tx ++ [r]) \/ (exists j r, j <> i /\ tx_rows tx' = set_nth j r (tx_rows tx)) ->
        exists rs', find_tx (set_tx (w_txs w) x tx') x = Some tx' /\ tx_live tx' = true /\
        nth_error (tx_rows tx') i = Some rs' /\
        rs_items rs' = rs_items rs /\ rs_cols rs' = rs_cols rs /\ rs_tbl rs' = rs_tbl rs /\
        (Call x c0 <> Call x (CNext i) -> rs_next rs' = rs_next rs) /\
        (Call x c0 = Call x (CNext i) ->
         out = yields rs (Z.to_nat (rs_next rs)) /\ rs_next rs' = Z.min (rs_next rs + 1) (zlen (rs_items rs)))) as Keep.
      { intros Nn Hr. exists rs. split; [exact F'|]. split; [exact L'|]. split.
        { destruct Hr as [-> |[(r & ->)|(j & r & Nj & ->)]].
          - exact Hi.
          - rewrite nth_error_app1; [exact Hi|]. apply nth_error_Some. congruence.
          - rewrite set_nth_other by congruence. exact Hi. }
        do 3 (split; [reflexivity|]). split; [reflexivity|congruence]. }
      assert (forall c, c0 = c -> (c = CNext i \/ c <> CNext i)) as Hdec.
      { intros c _. destruct c; try (right; discriminate).
        match goal with |- CNext ?n = _ \/ _ => destruct (Nat.eq_dec n i) end; [left|right]; congruence. }
      destruct (Hdec c0 eq_refl) as [-> | Nn].
      + simpl in Ev. rewrite Hi in Ev.
        assert (rs_next rs <? 0 = false) as E1 by (apply Z.ltb_ge; lia). rewrite E1 in Ev.
        destruct (rs_next rs =? zlen (rs_items rs)) eqn:E2.
        * apply Z.eqb_eq in E2. pose proof (f_equal fst Ev) as Eo. pose proof (f_equal snd Ev) as EA.
          cbn [fst snd] in Eo, EA. pose proof (absS_fields _ _ _ _ EA) as (_ & _ & _ & _ & B5 & _). simpl in B5.
          exists rs. split; [exact F'|]. split; [exact L'|]. split; [congruence|].
          do 3 (split; [reflexivity|]). split; [congruence|]. intros _. split; [|lia].
          rewrite <- Eo. unfold yields. destruct (nth_error (rs_items rs) _) eqn:En; [|reflexivity].
          assert (Z.to_nat (rs_next rs) < length (rs_items rs))%nat by (apply nth_error_Some; congruence).
          unfold zlen in *. lia.
        * apply Z.eqb_neq in E2.
          assert (exists it, nth_error (rs_items rs) (Z.to_nat (rs_next rs)) = Some it) as (it & En).
          { destruct (nth_error (rs_items rs) (Z.to_nat (rs_next rs))) eqn:En; [eauto|].
            apply nth_error_None in En. unfold zlen in *. lia. }
          assert (znth (rs_items rs) (rs_next rs) = Some it) as Ez.
          { unfold znth. rewrite E1. exact En. }
          rewrite Ez in Ev. pose proof (f_equal fst Ev) as Eo. pose proof (f_equal snd Ev) as EA.
          cbn [fst snd] in Eo, EA. unfold absS, v_set_rows in EA. simpl in EA. injection EA as _ _ _ _ B5 _.
          exists (rs_at rs (rs_next rs + 1)). split; [exact F'|]. split; [exact L'|].
          split. { rewrite <- B5. apply set_nth_same. apply nth_error_Some. congruence. }
          do 3 (split; [reflexivity|]). split; [congruence|]. intros _. split; [|simpl; lia].
          rewrite <- Eo. unfold yields. rewrite En. destruct (rs_cols rs) as [cs|]; [|reflexivity].
          now rewrite znth_project.
      + apply Keep; [congruence|]. apply vstep_obj in Ev.
        inversion Ev as [c1 out1 v1 B1 B2 B3 B4 B5 B6|tid tn cn ct p tb v1 B1 B2 B3 B4
          |j cols mn mx p items tb v1 B0 B1 B2 B3 B4 B5 B6|j rs1 it B1 B2 B3|j rs1 it B1 B2 B3|j rs1 B1 B2]; subst.
        * left. exact B2.
        * left. exact B2.
        * right. left. eexists. exact B6.
        * right. right. exists j, (rs_at rs1 (rs_next rs1 + 1)). split; congruence.
        * left. congruence.
        * right. right. exists j, (rs_at rs1 (-1)). split; congruence.
    - apply Same; [|exact F0]. destruct Hc0; congruence.
    - exfalso. pose proof (live_unique w x tx y ty K F0 L0 Hf (sees_live _ _ Hs)) as ->.
      assert (ty = tx) as -> by congruence. destruct Hv as (_ & Cv & _). simpl in Cv.
      assert (In rs (filter open_rs (tx_rows tx))) as Hin.
      { apply filter_In. split; [eapply nth_error_In; exact Hi|]. unfold open_rs. now apply Z.leb_le. }
      destruct (filter open_rs (tx_rows tx)); [contradiction|]. unfold zlen in Cv. simpl in Cv. lia.
  Qed.

  (** The row set [rs] at position [k]: nothing but position changed. *)
  Definition at_position (w : world) (x i : nat) (rs : rowset) (k : nat) : Prop :=
    exists tx rs', find_tx (w_txs w) x = Some tx /\ tx_live tx = true /\ nth_error (tx_rows tx) i = Some rs' /\
      rs_items rs' = rs_items rs /\ rs_cols rs' = rs_cols rs /\
      rs_next rs' = Z.of_nat (Nat.min k (length (rs_items rs))).

  Lemma yields_at rs rs' k : rs_items rs' = rs_items rs -> rs_cols rs' = rs_cols rs ->
    yields rs' (Nat.min k (length (rs_items rs))) = yields rs k.
  Proof.
    intros E1 E2. unfold yields. rewrite E1, E2.
    destruct (Nat.le_gt_cases k (length (rs_items rs))) as [H|H].
    - now rewrite Nat.min_l.
    - rewrite Nat.min_r by lia. rewrite (proj2 (nth_error_None (rs_items rs) k)) by lia.
      now rewrite (proj2 (nth_error_None (rs_items rs) (length (rs_items rs)))) by lia.
  Qed.

  Lemma stable_run x i rs ops : forall w outs w' k, wok w -> run w ops = (outs, w') ->
    at_position w x i rs k -> ~ In (Call x (CClose i)) ops ->
    let nexts := next_outcomes x i (combine ops outs) in
    nexts = map (yields rs) (seq k (length nexts)) /\ at_position w' x i rs (k + length nexts).
  Proof.
    induction ops as [|o ops IH]; intros w outs w' k K E A N; simpl in E.
    - injection E as <- <-. simpl. rewrite Nat.add_0_r. auto.
    - destruct (step w o) as [out w1] eqn:E1. destruct (run w1 ops) as [outs2 w2] eqn:E2.
      injection E as <- <-. destruct A as (tx & rs1 & F & Hl & Hi & I1 & I2 & I3).
      apply step_cases in E1; [|exact K]. pose proof (wok_step _ _ _ _ K E1) as K1.
      destruct (open_step w o out w1 x tx i rs1 K E1 F Hl Hi) as (tx' & rs' & F' & Hl' & Hi' & J1 & J2 & _ & J3 & J4).
      { lia. } { intros ->. apply N. now left. }
      assert (~ In (Call x (CClose i)) ops) as N' by (intros H; apply N; now right).
      cbn [combine]. unfold next_outcomes. cbn [filter fst].
      set (isn := match o with Call y (CNext j) => _ | _ => false end).
      assert (isn = true /\ o = Call x (CNext i) \/ isn = false /\ o <> Call x (CNext i)) as [[Hb Ho]|[Hb Ho]].
      { unfold isn. destruct o as [y|y c|s q]; try (right; split; [reflexivity|discriminate]).
        destruct c as [tid tn cn ct p|tid tn cn ct p|tid| | | |i0|i0 cols mn mx p|i0 rs0|i0|i0|i0|i0 cols vals|i0];
          try (right; split; [reflexivity|discriminate]).
        destruct (y =? x)%nat eqn:Ey.
        - apply Nat.eqb_eq in Ey. subst y. destruct (i0 =? i)%nat eqn:Ei.
          + apply Nat.eqb_eq in Ei. subst i0. left. split; reflexivity.
          + apply Nat.eqb_neq in Ei. right. split; [reflexivity|congruence].
        - apply Nat.eqb_neq in Ey. right. split; [reflexivity|congruence]. }
      + rewrite Hb. destruct (J4 Ho) as [Eo En]. cbn [map snd].
        assert (at_position w1 x i rs (S k)) as A'.
        { exists tx', rs'. repeat (split; [assumption || congruence|]). rewrite En, I3, I1. unfold zlen. lia. }
        specialize (IH w1 outs2 w2 (S k) K1 E2 A' N'). cbn zeta in IH. destruct IH as [IH1 IH2].
        fold (next_outcomes x i (combine ops outs2)). cbn [length seq map]. split.
        * f_equal; [|exact IH1]. rewrite Eo, I3, Nat2Z.id. now apply yields_at.
        * now rewrite Nat.add_succ_r.
      + rewrite Hb. apply (IH w1 outs2 w2 k K1 E2); [|exact N'].
        exists tx', rs'. repeat (split; [assumption || congruence|]). rewrite (J3 Ho). exact I3.
  Qed.

  Lemma rowset_stable w x i rs ops outs w' :
    reachable w -> active w x -> nth_error (rowsets_of w x) i = Some rs -> rs_next rs = 0 ->
    run w ops = (outs, w') -> ~ In (Call x (CClose i)) ops ->
    next_outcomes x i (combine ops outs) =
      map (yields rs) (seq 0 (length (next_outcomes x i (combine ops outs)))) /\ active w' x.
  Proof.
    intros R (tx & F & Hl) Hi Hn E N. apply reachable_wok in R.
    unfold rowsets_of in Hi. rewrite F in Hi.
    destruct (stable_run x i rs ops w outs w' 0 R E) as [H1 H2]; [|exact N|].
    - exists tx, rs. repeat (split; [assumption || reflexivity|]). exact Hn.
    - split; [exact H1|]. destruct H2 as (tx' & _ & F' & Hl' & _). exists tx'. auto.
  Qed.

  (** A new row set starts before its first row. *)
  Lemma rows_opened w x i cols mn mx p w' : reachable w ->
    step w (Call x (CRows i cols mn mx p)) = (ODone, w') ->
    active w x /\ active w' x /\
    exists items, rowsets_of w' x = rowsets_of w x ++ [{| rs_tbl := i; rs_cols := cols; rs_items := items; rs_next := 0 |}].
  Proof.
    intros R E. apply reachable_wok in R. apply step_cases in E; [|exact R].
    inversion E as [|  | | |x1 c1 tx1 out1 U D O|x1 c1 tx1 t1 out1 sh1 tx1' t1' Hf Hs Hv N1 N2 Ev Hs' SF
      |x1 c1 tx1 t1 Hf Hs Hv Hc0 C0|x1 c1 tx1 t1 h1 n1 Hf Hs Hv C0 Ht Hc0|]; subst.
    - simpl in O. destruct O; discriminate.
    - split; [exists tx1; split; [exact Hf|exact (sees_live _ _ Hs)]|].
      split. { exists tx1'. simpl. rewrite find_set, Hf, Nat.eqb_refl. split; [reflexivity|exact (sees_live _ _ Hs')]. }
      unfold rowsets_of. simpl. rewrite find_set, Hf, Nat.eqb_refl. apply vstep_obj in Ev.
      inversion Ev as [c1 out1 v1 B1 B2 B3 B4 B5 B6|tid tn cn ct p' tb v1 B1 B2 B3 B4
          |j cols' mn' mx' p' items tb v1 B0 B1 B2 B3 B4 B5 B6|j rs1 it B1 B2 B3|j rs1 it B1 B2 B3|j rs1 B1 B2]; subst.
      + exfalso. exact (B5 eq_refl).
      + exists items. exact B6.
    - destruct Hc0 as [[? _]|[? _]]; discriminate.
  Qed.

  (** Closed row sets. *)
  Definition is_closed (w : world) (x i : nat) : Prop :=
    exists tx rs, find_tx (w_txs w) x = Some tx /\ nth_error (tx_rows tx) i = Some rs /\ rs_next rs = -1.

  Lemma closed_step w o out w' x i : wok w -> wstep w o out w' -> is_closed w x i -> is_closed w' x i.
  Proof.
    intros K E (tx & rs & F0 & Hi & Hn).
    assert (find_tx (w_txs w') x = Some tx -> is_closed w' x i) as Same by (intros F1; now exists tx, rs).
    destruct E as [y U F|y U F|y ty U|y c0 U|y c0 ty out U D Od|y c0 ty t out sh' tx' t' Hf Hs Hv N1 N2 Ev Hs' SF
      |y c0 ty t Hf Hs Hv Hc0 C0|y c0 ty t h n Hf Hs Hv C0 Ht Hc0|s q]; try (apply Same; exact F0).
    - apply Same. simpl. now rewrite find_app, F0.
    - destruct (Nat.eq_dec y x) as [-> | Ny].
      2:{ apply Same. simpl. rewrite find_set. apply Nat.eqb_neq in Ny. now rewrite Ny. }
      assert (ty = tx) as -> by congruence.
      exists tx'. unfold rowsets_of. simpl. rewrite find_set, Hf, Nat.eqb_refl. exists rs.
      split; [reflexivity|]. split; [|exact Hn]. apply vstep_obj in Ev.
      inversion Ev as [c1 out1 v1 B1 B2 B3 B4 B5 B6|tid tn cn ct p tb v1 B1 B2 B3 B4
          |j cols mn mx p items tb v1 B0 B1 B2 B3 B4 B5 B6|j rs1 it B1 B2 B3|j rs1 it B1 B2 B3|j rs1 B1 B2]; subst;
        simpl in *.
      + now rewrite B2.
      + now rewrite B2.
      + rewrite B6, nth_error_app1; [exact Hi|]. apply nth_error_Some. congruence.
      + rewrite set_nth_other; [exact Hi|]. intros <-. assert (rs1 = rs) by congruence. subst. lia.
      + congruence.
      + rewrite set_nth_other; [exact Hi|]. intros <-. assert (rs1 = rs) by congruence. subst. lia.
    - destruct (Nat.eq_dec y x) as [-> | Ny].
      2:{ apply Same. simpl. rewrite find_set. apply Nat.eqb_neq in Ny. now rewrite Ny. }
      assert (ty = tx) as -> by congruence.
      exists (kills tx), rs. simpl. rewrite find_set, Hf, Nat.eqb_refl. auto.
  Qed.

  Lemma closed_run x i ops : forall w outs w', wok w -> run w ops = (outs, w') -> is_closed w x i -> is_closed w' x i.
  Proof.
    induction ops as [|o ops IH]; intros w outs w' K E C; simpl in E.
    - now injection E as _ <-.
    - destruct (step w o) as [out w1] eqn:E1. destruct (run w1 ops) as [outs2 w2] eqn:E2.
      injection E as _ <-. apply step_cases in E1; [|exact K].
      eapply IH; [eapply wok_step; eassumption|exact E2|eapply closed_step; eassumption].
  Qed.

  Lemma closed_panics w x i ops outs w1 w' c :
    reachable w -> step w (Call x (CClose i)) = (ODone, w1) -> run w1 ops = (outs, w') ->
    c = CNext i \/ c = CCurrent i \/ c = CClose i -> step w' (Call x c) = (OPanic, w').
  Proof.
    intros R E Er Hc. pose proof (reachable_step _ _ _ _ R E) as R1. apply reachable_wok in R1.
    apply reachable_wok in R. apply step_cases in E; [|exact R].
    assert (is_closed w1 x i) as C1.
    { inversion E as [|  | | |x1 c1 tx1 out1 U D O|x1 c1 tx1 t1 out1 sh1 tx1' t1' Hf Hs Hv N1 N2 Ev Hs' SF
      |x1 c1 tx1 t1 Hf Hs Hv Hc0 C0|x1 c1 tx1 t1 h1 n1 Hf Hs Hv C0 Ht Hc0|]; subst.
      - simpl in O. destruct O; discriminate.
      - apply vstep_obj in Ev.
        inversion Ev as [c1 out1 v1 B1 B2 B3 B4 B5 B6|tid tn cn ct p' tb v1 B1 B2 B3 B4
          |j cols' mn' mx' p' items tb v1 B0 B1 B2 B3 B4 B5 B6|j rs1 it B1 B2 B3|j rs1 it B1 B2 B3|j rs1 B1 B2]; subst.
        + exfalso. exact (B5 eq_refl).
        + exists tx1', (rs_at rs1 (-1)). simpl. rewrite find_set, Hf, Nat.eqb_refl. split; [reflexivity|].
          split; [|reflexivity].
          match goal with H : set_nth _ _ _ = _ |- _ => rewrite <- H end. apply set_nth_same. apply nth_error_Some. simpl in B1. congruence.
      - destruct Hc0 as [[? _]|[? _]]; discriminate. }
    destruct (closed_run x i ops w1 outs w' R1 Er C1) as (tx & rs & F & Hi & Hn).
    simpl. rewrite F.
    assert (callStep (w_sh w', tx) c = (OPanic, (w_sh w', tx))) as ->.
    { destruct Hc as [-> |[-> | ->]]; simpl; rewrite Hi.
      - unfold runM, Next. now rewrite Hn.
      - unfold runM, Current. now rewrite Hn.
      - unfold runM, Close. now rewrite Hn. }
    now rewrite (set_same _ _ _ F), world_eta.
  Qed.

  (** Counting. *)
  Definition open_count (w : world) (x : nat) : Z :=
    match find_tx (w_txs w) x with Some tx => tx_count tx | None => 0 end.

  Lemma count_other f o out : (out <> ODone \/ forall y c, o = Call y c -> f y c = false) ->
    count_calls f [(o, out)] = 0%nat.
  Proof.
    unfold count_calls. simpl. destruct o as [y|y c|s q]; try reflexivity.
    destruct out; try reflexivity. intros [H|H]; [congruence|]. now rewrite (H y c eq_refl).
  Qed.

  Lemma count_cons f e h : count_calls f (e :: h) = (count_calls f [e] + count_calls f h)%nat.
  Proof.
    unfold count_calls. simpl. destruct e as [[y|y c|s q] out]; try reflexivity.
    destruct out; try reflexivity. destruct (f y c); reflexivity.
  Qed.

  Lemma count_step w o out w' x : wok w -> wstep w o out w' ->
    open_count w' x = open_count w x + Z.of_nat (opened x [(o, out)]) - Z.of_nat (closed x [(o, out)]).
  Proof.
    intros K E.
    assert (open_count w' x = open_count w x ->
      (out <> ODone \/ forall y c, o = Call y c -> y <> x \/
         match c with CRows _ _ _ _ _ | CClose _ => False | _ => True end) ->
      open_count w' x = open_count w x + Z.of_nat (opened x [(o, out)]) - Z.of_nat (closed x [(o, out)])) as Same.
    { intros Ec H. unfold opened, closed. rewrite !count_other; [lia| |].
      - destruct H as [H|H]; [now left|right]. intros y c Eo. destruct (H y c Eo) as [Ny|Hc].
        + apply Nat.eqb_neq in Ny. now rewrite Ny.
        + destruct c; try contradiction; apply andb_false_r.
      - destruct H as [H|H]; [now left|right]. intros y c Eo. destruct (H y c Eo) as [Ny|Hc].
        + apply Nat.eqb_neq in Ny. now rewrite Ny.
        + destruct c; try contradiction; apply andb_false_r. }
    destruct E as [y U F|y U F|y ty U|y c0 U|y c0 ty out U D Od|y c0 ty t out sh' tx' t' Hf Hs Hv N1 N2 Ev Hs' SF
      |y c0 ty t Hf Hs Hv Hc0 C0|y c0 ty t h n Hf Hs Hv C0 Ht Hc0|s q];
      try (apply Same; [reflexivity|left; discriminate]).
    - apply Same; [|right; discriminate]. unfold open_count. simpl. rewrite find_app.
      destruct (find_tx (w_txs w) x); [reflexivity|]. destruct (y =? x)%nat; reflexivity.
    - apply Same; [reflexivity|].
      destruct c0; simpl in Od; try (left; destruct Od; congruence); try (left; congruence);
        right; intros z c [= <- <-]; now right.
    - unfold open_count at 1. simpl. rewrite find_set, Hf. destruct (y =? x)%nat eqn:Ey.
      2:{ apply Nat.eqb_neq in Ey. assert (find_tx (set_tx (w_txs w) y tx') x = find_tx (w_txs w) x) as Ef.
          { rewrite find_set. apply Nat.eqb_neq in Ey. now rewrite Ey. }
          assert (open_count {| w_sh := sh'; w_txs := set_tx (w_txs w) y tx' |} x = open_count w x) as Eo.
          { unfold open_count. simpl. now rewrite Ef. }
          rewrite <- Same.
          - unfold open_count. simpl. now rewrite Ef.
          - exact Eo.
          - right. intros z c [= <- <-]. now left. }
      apply Nat.eqb_eq in Ey. subst y. unfold open_count. rewrite Hf. apply vstep_obj in Ev.
      unfold opened, closed.
      inversion Ev as [c1 out1 v1 B1 B2 B3 B4 B5 B6|tid tn cn ct p tb v1 B1 B2 B3 B4
          |j cols mn mx p items tb v1 B0 B1 B2 B3 B4 B5 B6|j rs1 it B1 B2 B3|j rs1 it B1 B2 B3|j rs1 B1 B2]; subst;
        simpl in *.
      + rewrite B4. rewrite !count_other; [lia| |].
        * destruct out; try (left; discriminate). right. intros z c [= <- <-].
          specialize (B5 eq_refl). destruct c0; try contradiction; apply andb_false_r.
        * destruct out; try (left; discriminate). right. intros z c [= <- <-].
          specialize (B5 eq_refl). destruct c0; try contradiction; apply andb_false_r.
      + rewrite B4. unfold count_calls. simpl. rewrite Nat.eqb_refl. simpl. lia.
      + rewrite B5. unfold count_calls. simpl. rewrite Nat.eqb_refl. simpl. lia.
      + rewrite !count_other; [lia| |]; right; intros z c [= <- <-]; apply andb_false_r.
      + rewrite !count_other; [lia| |]; right; intros z c [= <- <-]; apply andb_false_r.
      + unfold count_calls. simpl. rewrite Nat.eqb_refl. simpl. lia.
    - apply Same.
      + unfold open_count. simpl. rewrite find_set, Hf. destruct (y =? x)%nat eqn:Ey; [|reflexivity].
        apply Nat.eqb_eq in Ey. subst y. rewrite Hf. reflexivity.
      + right. intros z c [= <- <-]. right. destruct Hc0 as [[-> _]|[-> _]]; exact I.
    - apply Same; [reflexivity|right; discriminate].
  Qed.

  Lemma count_run x ops : forall w outs w', wok w -> run w ops = (outs, w') ->
    open_count w' x = open_count w x + Z.of_nat (opened x (combine ops outs)) - Z.of_nat (closed x (combine ops outs)).
  Proof.
    induction ops as [|o ops IH]; intros w outs w' K E; simpl in E.
    - injection E as <- <-. simpl. unfold opened, closed, count_calls. simpl. lia.
    - destruct (step w o) as [out w1] eqn:E1. destruct (run w1 ops) as [outs2 w2] eqn:E2.
      injection E as <- <-. apply step_cases in E1; [|exact K].
      pose proof (count_step w o out w1 x K E1) as Hs. pose proof (wok_step _ _ _ _ K E1) as K1.
      specialize (IH w1 outs2 w2 K1 E2). cbn [combine]. unfold opened, closed in *.
      rewrite (count_cons _ (o, out) (combine ops outs2)).
      rewrite (count_cons (fun y c => _ && match c with CClose _ => true | _ => false end) (o, out) (combine ops outs2)).
      lia.
  Qed.

  Lemma completion_blocked t ops outs w x c :
    run (newStore t) ops = (outs, w) -> active w x -> c = CCommit \/ c = CRollback ->
    (opened x (combine ops outs) = closed x (combine ops outs) -> fst (step w (Call x c)) = ODone) /\
    (opened x (combine ops outs) <> closed x (combine ops outs) -> step w (Call x c) = (OPanic, w)) /\
    (closed x (combine ops outs) <= opened x (combine ops outs))%nat.
  Proof.
    intros E (tx & F & Hl) Hc.
    assert (wok (newStore t)) as K0 by apply wok_new.
    pose proof (count_run x ops (newStore t) outs w K0 E) as Hn.
    unfold open_count in Hn. rewrite F in Hn. simpl in Hn.
    pose proof (wok_run _ _ _ _ K0 E) as K.
    destruct (wk_live w K x tx F Hl) as (tr & Hs & Hv). destruct Hv as (_ & Cv & _). simpl in Cv.
    destruct (step w (Call x c)) as [out w'] eqn:Es. apply step_cases in Es; [|exact K]. simpl fst.
    split; [|split].
    - intros Heq. assert (tx_count tx = 0) as Z0 by lia.
      inversion Es as [|  | |x1 c1 U|x1 c1 tx1 out1 U D O|x1 c1 tx1 t1 out1 sh1 tx1' t1' Hf Hs1 Hv1 N1 N2 Ev Hs' SF
      |x1 c1 tx1 t1 Hf Hs1 Hv1 Hc0 C0|x1 c1 tx1 t1 h1 n1 Hf Hs1 Hv1 C0 Ht Hc0|]; subst.
      + unfold unused in U. congruence.
      + destruct D as (D & _). congruence.
      + destruct Hc; congruence.
      + exfalso. apply C0. congruence.
      + reflexivity.
    - intros Hne. assert (tx_count tx <> 0) as Z0 by lia.
      inversion Es as [|  | |x1 c1 U|x1 c1 tx1 out1 U D O|x1 c1 tx1 t1 out1 sh1 tx1' t1' Hf Hs1 Hv1 N1 N2 Ev Hs' SF
      |x1 c1 tx1 t1 Hf Hs1 Hv1 Hc0 C0|x1 c1 tx1 t1 h1 n1 Hf Hs1 Hv1 C0 Ht Hc0|]; subst.
      + unfold unused in U. congruence.
      + destruct D as (D & _). congruence.
      + destruct Hc; congruence.
      + reflexivity.
      + exfalso. apply Z0. congruence.
    - unfold zlen in Cv. lia.
  Qed.
End Rows.
