(** Tables of structs: what the functions do to the rows. *)

From Verif Require Import ModelTyped SpecTyped LemmasBase LemmasKey LemmasValue LemmasTree LemmasStore LemmasWorld
  LemmasHistory LemmasSerial LemmasTable LemmasContents LemmasTableFacts LemmasTableCalls LemmasTableTypes LemmasRows LemmasTyped
  LemmasExec LemmasSelect.

(** Values made from fields exist in Go. *)
Lemma of_kind_wf {F : Float32Lib} k v y ct : of_kind k v ->
  match ct_type ct with
  | BoolType => match v with FBool b => Ok (VBool b) | _ => Panic end
  | StringType => match valueString v with Some s => if ct_size ct <? zlen s then Panic else Ok (VString s) | None => Panic end
  | BytesType =>
      match v with
      | FBytes o => let b := match o with Some b => b | None => [] end in if ct_size ct <? zlen b then Panic else Ok (VBytes b)
      | _ => Panic
      end
  | Float64Type => match v with FFloat _ p => Ok (VFloat p) | _ => Panic end
  | Int64Type => match v with FInt _ i => Ok (VInt i) | _ => Panic end
  | UnknownType => Panic
  end = Ok y -> wf_value y.
Proof.
  intros H E. destruct (ct_type ct); try discriminate.
  - destruct v; try discriminate. injection E as <-. exact I.
  - destruct (valueString v); [|discriminate]. destruct (_ <? _); [discriminate|]. injection E as <-. exact I.
  - destruct v; try discriminate. cbv zeta in E. destruct (_ <? _); [discriminate|]. injection E as <-. exact I.
  - destruct v; try discriminate. injection E as <-. cbn in H |- *. tauto.
  - destruct v as [|k0 z| | | | | ]; try discriminate. injection E as <-. cbn in H |- *. destruct H as [-> H].
    eapply in_kind_i64; exact H.
Qed.

Lemma field_wf {F : Float32Lib} ft v ct y : has_type ft v -> fieldToValue ct v = Ok y -> wf_value y.
Proof.
  intros H E. unfold fieldToValue in E. cbv zeta in E. destruct ft as [k|k].
  - cbn in H. destruct (ct_notnull ct); [eapply of_kind_wf; eassumption|].
    destruct v as [| | | |[b|]| | ]; try discriminate.
    + destruct (ct_type ct) eqn:Et; try discriminate. destruct (_ <? _); [discriminate|]. injection E as <-. exact I.
    + injection E as <-. exact I.
    + destruct o; [contradiction|]. contradiction.
  - destruct H as (o & -> & Ho). destruct (ct_notnull ct).
    + destruct (ct_type ct); try discriminate. destruct (valueString _); [|discriminate]. destruct (_ <? _); [discriminate|].
      injection E as <-. exact I.
    + destruct o as [v'|]; [|injection E as <-; exact I]. specialize (Ho v' eq_refl).
      destruct (ct_type ct) eqn:Et; try discriminate;
        (eapply (of_kind_wf k v' y ct Ho); rewrite Et; exact E).
Qed.

Lemma fieldsToRow_length cts : forall vs r, fieldsToRow cts vs = Ok r -> length r = length cts.
Proof.
  induction cts as [|ct cts IH]; intros vs r E; cbn [fieldsToRow] in E; [injection E as <-; reflexivity|].
  destruct vs as [|v vs]; [discriminate|]. destruct (fieldToValue ct v); try discriminate. cbn [rbind] in E.
  destruct (fieldsToRow cts vs) as [r1| |] eqn:E1; try discriminate. injection E as <-. cbn [length]. f_equal. eapply IH; exact E1.
Qed.

Lemma fieldsToRow_wf {F : Float32Lib} flds : forall vs cts r, Forall2 (fun fd v => has_type (fd_type fd) v) flds vs ->
  fieldsToRow cts vs = Ok r -> Forall wf_value r.
Proof.
  intros vs cts r H. revert cts r. induction H as [|fd v flds vs H1 H2 IH]; intros [|ct cts] r E; cbn [fieldsToRow] in E;
    try discriminate; try (injection E as <-; constructor).
  destruct (fieldToValue ct v) as [y| |] eqn:Ey; try discriminate. cbn [rbind] in E.
  destruct (fieldsToRow cts vs) as [r1| |] eqn:E1; try discriminate. injection E as <-.
  constructor; [eapply field_wf; eassumption|]. eapply IH; exact E1.
Qed.

Lemma bound_facts {F : Float32Lib} ti st g r : bound_for ti st g r ->
  bound_wf r /\ forall r0, r = Some r0 -> length r0 = length (ti_types ti).
Proof.
  intros [Ho E]. unfold structToRow in E. destruct g as [g|]; [|injection E as <-; split; intros r0 H; discriminate].
  destruct (bytes_eqb _ _); [|discriminate]. destruct (fieldsToRow _ _) as [r1| |] eqn:E1; try discriminate. injection E as <-.
  destruct (Ho g eq_refl) as [_ Hg]. split.
  - intros r0 [= <-]. eapply fieldsToRow_wf; eassumption.
  - intros r0 [= <-]. eapply fieldsToRow_length; exact E1.
Qed.

(** Columns and values of an update. *)
Lemma fieldNameToColumn_range flds name : forall idx c, fieldNameToColumn idx flds name = Some c ->
  idx <= c < idx + zlen flds.
Proof.
  induction flds as [|f flds IH]; intros idx c E; cbn [fieldNameToColumn] in E; [discriminate|].
  unfold zlen in *. cbn [length]. destruct (list_eqb _ _ _); [injection E as <-; lia|]. apply IH in E. lia.
Qed.

Lemma colsVals_facts {F : Float32Lib} ti u cols vals : zlen (ti_types ti) < 2 ^ 32 -> update_typed u ->
  structToColsVals ti u = Ok (cols, vals) ->
  length cols = length vals /\ Forall wf_value vals /\ Forall (fun c => 0 <= c < zlen (ti_types ti)) cols.
Proof.
  intros Hz. revert cols vals. induction u as [|[name v] u IH]; intros cols vals Hu E; cbn [structToColsVals] in E.
  - injection E as <- <-. repeat split; constructor.
  - destruct (fieldNameToColumn 0 (ti_flds ti) name) as [c|] eqn:Ec; [|discriminate].
    destruct (znth (ti_types ti) c) as [ct|] eqn:Ez; [|discriminate].
    destruct (fieldToValue ct v) as [y| |] eqn:Ey; try discriminate. cbn [rbind] in E.
    destruct (structToColsVals ti u) as [[cs vs]| |] eqn:E1; try discriminate. cbn [rbind fst snd] in E. injection E as <- <-.
    inversion Hu as [|? ? (ft & H1) H2]; subst. destruct (IH cs vs H2 eq_refl) as (I1 & I2 & I3). cbn [snd] in H1.
    apply fieldNameToColumn_range in Ec. unfold znth in Ez.
    destruct (c <? 0) eqn:Ec0; [discriminate|]. assert (Z.to_nat c < length (ti_types ti))%nat as Hlt by (apply nth_error_Some; congruence).
    assert (0 <= c < zlen (ti_types ti)) as Hc by (unfold zlen; apply Z.ltb_ge in Ec0; lia).
    split; [cbn [length]; congruence|]. split; [constructor; [eapply field_wf; eassumption|exact I2]|].
    constructor; [|exact I3]. unfold u32. rewrite Z.mod_small by lia. exact Hc.
Qed.

Section Bodies.
  Context {X : FloatLib} {L : CaseLib} {G : GobLib}.
  Context (HX : FloatLib_ok X) (HG : GobLib_ok G).

  Lemma at_row_ext x i j tb items h w t n lg w' t' : at_row x i j tb items h w t n ->
    run w (map fst lg) = (map snd lg, w') -> gentle_log x lg -> view w' x = Some t' -> tables_of w' x = tables_of w x ->
    rowsets_of w' x = rowsets_of w x -> at_row x i j tb items (h ++ lg) w' t' n.
  Proof.
    intros [A1 A2 A3 A4] E Hg Hv Ht Hr. constructor.
    - eapply orderly_ext; eassumption.
    - exact Hv.
    - now rewrite Ht.
    - now rewrite Hr.
  Qed.

  Lemma quiet_at {A} x i j tb items h w t n (p : prog A) : at_row x i j tb items h w t n -> quiet p ->
    exists r w' lg, exec w x p = (r, w', lg) /\ gentle_log x lg /\ opened x lg = 0%nat /\ closed x lg = 0%nat /\
      at_row x i j tb items (h ++ lg) w' t n /\ qrun (sh_idt (w_sh w)) p = (r, sh_idt (w_sh w')).
  Proof.
    intros HA Hq. destruct (exec w x p) as [[r w'] lg] eqn:E. destruct (exec_quiet x p Hq w r w' lg E) as (Q1 & (Q2 & Q3 & Q4 & Q5) & Q6 & Q7 & Q8).
    exists r, w', lg. split; [reflexivity|]. do 3 (split; [assumption|]). split; [|exact Q1].
    eapply at_row_ext; [exact HA|eapply exec_run; exact E|exact Q6|rewrite Q2; exact (ar_view _ _ _ _ _ _ _ _ _ HA)|exact Q3|exact Q4].
  Qed.

  Lemma rows_wf h w x t tb kc : known h w x t tb kc -> Forall (Forall wf_value) (rows_in t (tb_tid tb)).
  Proof.
    intros K. rewrite rows_in_of_rel. apply Forall_map_iff, Forall_forall. intros it Hi. apply of_rel_In in Hi as [Hi Er].
    now destruct (k_item _ _ _ _ _ _ it K Hi Er) as (_ & _ & ?).
  Qed.

  Lemma same_key_refl kc r : same_key kc r r.
  Proof. intros c d _. now left. Qed.

  (** Rows to come are not the one at hand. *)
  Lemma still_there_tail tid kc t t' r l rest : Forall (Forall wf_value) (rows_in t tid) -> still_there tid kc t (r :: l) ->
    Permutation (rows_in t tid) (r :: rest) -> (forall q, In q rest -> In q (rows_in t' tid)) -> still_there tid kc t' l.
  Proof.
    intros W [F S] P Hr. apply StronglySorted_inv in S as [S FS]. inversion F as [|? ? F1 F2]; subst. split; [|exact S].
    apply Forall_forall. intros q Hq. apply Hr.
    pose proof (Permutation_in _ P (proj1 (Forall_forall _ _) F2 q Hq)) as [<-|H]; [|exact H]. exfalso.
    pose proof (proj1 (Forall_forall _ _) FS r Hq) as K. cbn in K.
    pose proof (proj1 (Forall_forall _ _) W r F1) as Wr.
    rewrite (proj2 (key_order_eq kc r r Wr Wr)) in K; [discriminate|]. apply same_key_refl.
  Qed.

  Lemma still_there_weaken tid kc t r l : still_there tid kc t (r :: l) -> still_there tid kc t l.
  Proof.
    intros [F S]. apply StronglySorted_inv in S as [S _]. inversion F as [|? ? F1 F2]; subst. split; assumption.
  Qed.

  (** ** Select *)
  Lemma visit_loops {S} (fn : S -> row -> prog (S * option error)) i t s l r i' t' :
    loops (fun i t s row r i' t' => qrun i (fn s row) = (r, i') /\ t' = t) i t s l r i' t' ->
    r = visit fn i s l /\ t' = t.
  Proof.
    induction 1 as [i t s|i t s row l s1 i1 t1 res i2 t2 [H ->] H' IH|i t s row l s1 e i1 t1 [H ->]|i t s row l e i1 t1 [H ->]|i t s row l i1 t1 [H ->]];
      cbn [visit]; try rewrite H; auto.
  Qed.

  Lemma select_lemma {F : Float32Lib} {S} h w x t ti kc st mnS mxS mn mx (fn : S -> row -> prog (S * option error)) s :
    can_open h w x t ti kc -> bound_for ti st mnS mn -> bound_for ti st mxS mx -> (forall s r, quiet (fn s r)) ->
    exists w' lg, exec w x (TypedTableSelect ti mnS mxS fn s) =
        (visit fn (idt_open w x ti) s (filter (in_range kc mn mx) (rows_in t (ti_tid ti))), w', lg) /\
      view w' x = Some t /\ gentle_log x lg /\ opened x lg = closed x lg.
  Proof.
    intros CO Bmn Bmx Hq. destruct (bound_facts _ _ _ _ Bmn) as [W1 L1]. destruct (bound_facts _ _ _ _ Bmx) as [W2 L2].
    destruct (exec_select HX HG h w x t ti kc mnS mxS mn mx (fun s _ row => fn s row) s
      (fun i t s row r i' t' => qrun i (fn s row) = (r, i') /\ t' = t) CO (proj2 Bmn) (proj2 Bmx) W1 W2 L1 L2)
      as (r & w' & lg & t' & E & G1 & O1 & V1 & L3).
    { intros i j tb items h0 w0 t0 n it s0 HA _ _ _ Hi HQ.
      destruct (quiet_at x i j tb items h0 w0 t0 _ (fn s0 (it_row it)) HA (Hq _ _)) as (r & w' & lg & E & G1 & O1 & C1 & A1 & Q1).
      exists r, w', lg, t0. do 5 (split; [assumption|]). split; [auto|].
      destruct r as [[s1 [e|]]| |]; auto. rewrite (skipn_nth _ _ _ Hi) in HQ. eapply still_there_weaken. exact HQ. }
    apply visit_loops in L3 as [-> ->]. exists w', lg. unfold TypedTableSelect. auto.
  Qed.

  (** ** Delete *)
  Definition deletes {S} (tid : Z) (fn : S -> row -> prog (S * (bool + error))) (i : idtable) (t : tree) (s : S) (row : row)
      (r : res (S * option error)) (i' : idtable) (t' : tree) : Prop :=
    exists q, qrun i (fn s row) = (q, i') /\
      match q with
      | Ok (s', inl true) => r = Ok (s', None) /\ Permutation (rows_in t tid) (row :: rows_in t' tid) /\ only_table tid t t'
      | Ok (s', inl false) => r = Ok (s', None) /\ t' = t
      | Ok (s', inr e) => r = Ok (s', Some e) /\ t' = t
      | Err e => r = Err e /\ t' = t
      | Panic => r = Panic /\ t' = t
      end.

  Lemma delete_loops {S} tid (fn : S -> row -> prog (S * (bool + error))) i t s l r i' t' :
    loops (deletes tid fn) i t s l r i' t' ->
    r = snd (visit_delete fn i s l) /\ Permutation (rows_in t tid) (fst (visit_delete fn i s l) ++ rows_in t' tid) /\ only_table tid t t'.
  Proof.
    induction 1 as [i t s|i t s row l s1 i1 t1 res i2 t2 (q & Hq & H) H' (I1 & I2 & I3)|i t s row l s1 e i1 t1 (q & Hq & H)
      |i t s row l e i1 t1 (q & Hq & H)|i t s row l i1 t1 (q & Hq & H)]; cbn [visit_delete].
    - split; [reflexivity|]. split; [apply Permutation_refl|]. now intros tid' _ _.
    - rewrite Hq. destruct q as [[s2 [[|]|e]]|e|].
      + destruct H as (E & P & O). injection E as ->. destruct (visit_delete fn i1 s2 l) as [d rr]. cbn [fst snd] in *.
        split; [exact I1|]. split.
        * eapply Permutation_trans; [exact P|]. cbn [app]. now apply perm_skip.
        * intros tid' H0 H1. rewrite I3, O; auto.
      + destruct H as (E & ->). injection E as ->. destruct (visit_delete fn i1 s2 l) as [d rr]. cbn [fst snd] in *. auto.
      + destruct H as (E & _). discriminate.
      + destruct H as (E & _). discriminate.
      + destruct H as (E & _). discriminate.
    - rewrite Hq. destruct q as [[s2 [[|]|e']]|e'|]; destruct H as (E & H); try discriminate. injection E as -> ->. subst t1.
      split; [reflexivity|]. split; [apply Permutation_refl|]. now intros tid' _ _.
    - rewrite Hq. destruct q as [[s2 [[|]|e']]|e'|]; destruct H as (E & H); try discriminate. injection E as ->. subst t1.
      split; [reflexivity|]. split; [apply Permutation_refl|]. now intros tid' _ _.
    - rewrite Hq. destruct q as [[s2 [[|]|e']]|e'|]; destruct H as (E & H); try discriminate. subst t1.
      split; [reflexivity|]. split; [apply Permutation_refl|]. now intros tid' _ _.
  Qed.

  (** Getting a reference to the row at hand. *)
  Lemma current_at x i j tb kc items h w t n it : at_row x i j tb items h w t (Datatypes.S n) -> keyed tb kc -> nth_error items n = Some it ->
    exists w' rr, step w (Call x (CCurrent j)) = (ODone, w') /\ fst (made w' x (CCurrent j)) = length (refs_of w x) /\
      sh_idt (w_sh w') = sh_idt (w_sh w) /\
      at_row x i j tb items (h ++ [(Call x (CCurrent j), ODone)]) w' t (Datatypes.S n) /\
      nth_error (refs_of w' x) (length (refs_of w x)) = Some rr /\ rr_tbl rr = i /\ denotes kc rr (it_row it).
  Proof.
    intros HA Hk Hi. pose proof HA as [A1 A2 A3 A4].
    destruct (current_live w x t j _ n it (ran_wok _ _ (proj1 A1)) A2 A4 eq_refl Hi) as (w' & E & V1 & V2 & V3 & V4 & V5).
    destruct (current_denotes HX HG h w x t j _ i tb kc w' A1 A2 A4 eq_refl A3 Hk E) as (_ & r & rr & D1 & _ & D2 & D3 & D4).
    cbn [rs_items rs_next rs_tbl] in *.
    replace (Z.to_nat (Z.of_nat (Datatypes.S n) - 1)) with n in D1 by lia. rewrite (map_nth_error it_row _ _ Hi) in D1. injection D1 as <-.
    exists w', rr. split; [exact E|]. split; [rewrite made_ref, D2, app_length; cbn [length]; lia|]. split; [exact V4|]. split.
    - eapply at_row_ext; [exact HA|apply run_one; exact E|apply gentle_one; cbn; auto|exact V1|exact V2|exact V3].
    - rewrite D2. split; [apply nth_error_last|]. auto.
  Qed.

  Lemma delete_lemma {F : Float32Lib} {S} h w x t ti kc st mnS mxS mn mx (fn : S -> row -> prog (S * (bool + error))) s :
    can_open h w x t ti kc -> bound_for ti st mnS mn -> bound_for ti st mxS mx -> (forall s r, quiet (fn s r)) ->
    let found := filter (in_range kc mn mx) (rows_in t (ti_tid ti)) in
    exists w' lg t', exec w x (TypedTableDelete ti mnS mxS fn s) = (snd (visit_delete fn (idt_open w x ti) s found), w', lg) /\
      view w' x = Some t' /\ gentle_log x lg /\ opened x lg = closed x lg /\ only_table (ti_tid ti) t t' /\
      Permutation (rows_in t (ti_tid ti)) (fst (visit_delete fn (idt_open w x ti) s found) ++ rows_in t' (ti_tid ti)).
  Proof.
    intros CO Bmn Bmx Hq found. destruct (bound_facts _ _ _ _ Bmn) as [W1 L1]. destruct (bound_facts _ _ _ _ Bmx) as [W2 L2].
    unfold TypedTableDelete.
    match goal with |- context [typedTableSelect _ _ _ ?f _] =>
      edestruct (exec_select HX HG h w x t ti kc mnS mxS mn mx f s (deletes (ti_tid ti) fn))
      as (r & w' & lg & t' & E & G1 & O1 & V1 & L3); [exact CO|exact (proj2 Bmn)|exact (proj2 Bmx)|exact W1|exact W2|exact L1|exact L2| |] end.
    2: { apply delete_loops in L3 as (-> & P & O). exists w', lg, t'. rewrite E. auto 8. }
    intros i j tb items h0 w0 t0 n it s0 HA Ht Hty Hk Hi HQ. cbv beta. rewrite exec_pbind.
    destruct (quiet_at x i j tb items h0 w0 t0 _ (fn s0 (it_row it)) HA (Hq _ _)) as (q & w1 & lg1 & E1 & G1 & O1 & C1 & A1 & Q1).
    rewrite E1. pose proof HQ as HQ'. rewrite (skipn_nth _ _ _ Hi) in HQ'. cbn [map] in HQ'.
    destruct q as [[s1 b]|e|]; [| |].
    2: { do 4 eexists. split; [reflexivity|]. do 3 (split; [assumption|]). split; [exact A1|]. split; [|exact I].
         exists (Err e). split; [exact Q1|]. auto. }
    2: { do 4 eexists. split; [reflexivity|]. do 3 (split; [assumption|]). split; [exact A1|]. split; [|exact I].
         exists Panic. split; [exact Q1|]. auto. }
    cbn [snd fst]. destruct b as [[|]|e].
    2: { cbn [exec pret]. do 4 eexists. split; [reflexivity|]. rewrite app_nil_r. do 3 (split; [assumption|]). split; [exact A1|]. split.
         - exists (Ok (s1, inl false)). split; [exact Q1|]. auto.
         - eapply still_there_weaken. exact HQ'. }
    2: { cbn [exec pret]. do 4 eexists. split; [reflexivity|]. rewrite app_nil_r. do 3 (split; [assumption|]). split; [exact A1|].
         split; [|exact I]. exists (Ok (s1, inr e)). split; [exact Q1|]. auto. }
    destruct (current_at x i j tb kc items _ w1 t0 n it A1 Hk Hi) as (w2 & rr & E2 & M2 & I2 & A2 & R2 & R3 & R4).
    rewrite exec_pthen, exec_pbind. unfold call at 1. cbn [exec]. rewrite E2. cbn [exec pret]. cbn [fst]. rewrite M2.
    pose proof A2 as [B1 B2 B3 B4].
    assert (In (it_row it) (rows_in t0 (ti_tid ti))) as Hin by (inversion HQ' as [F0 _]; now inversion F0).
    rewrite <- Ht in Hin.
    pose proof (delete_exact HX HG _ w2 x t0 _ rr tb kc B1 B2 R2 ltac:(now rewrite R3) Hk) as [HD _]. cbv zeta in HD.
    destruct (HD (it_row it) Hin R4) as (HD1 & t1 & V3 & P3 & T3). clear HD.
    destruct (step w2 (Call x (CDelete (length (refs_of w1 x))))) as [out w3] eqn:E3. cbn [fst snd] in HD1, V3. subst out.
    unfold call. cbn [exec]. rewrite E3. cbn [exec pret].
    destruct (change_live w2 x t0 (CDelete (length (refs_of w1 x))) _ w3 (ran_wok _ _ (proj1 B1)) B2 I E3) as (U1 & U2 & U3 & U4).
    do 4 eexists. split; [reflexivity|]. cbn [app].
    assert (gentle_log x [(Call x (CDelete (length (refs_of w1 x))), ODone)]) as G3 by (apply gentle_one; cbn; auto).
    assert (gentle_log x [(Call x (CCurrent j), ODone)]) as G2 by (apply gentle_one; cbn; auto).
    split; [|split; [|split; [|split; [|split]]]].
    - apply gentle_app; [exact G1|]. apply (gentle_app x [_] [_]); assumption.
    - rewrite opened_app, O1. cnt.
    - rewrite closed_app, C1. cnt.
    - pose proof (at_row_ext x i j tb items _ w2 t0 _ _ w3 t1 A2 (run_one _ _ _ _ E3) G3 V3 U1 U2) as A3.
      rewrite <- !app_assoc in A3. cbn [app] in A3. exact A3.
    - exists (Ok (s1, inl true)). split; [rewrite U4, I2; exact Q1|]. rewrite <- Ht. auto.
    - pose proof (table_known' HX HG _ _ _ _ tb kc B1 B2 (nth_error_In _ _ B3) Hk) as K. apply rows_wf in K. rewrite Ht in K, P3.
      eapply still_there_tail; [exact K|exact HQ'|exact P3|auto].
  Qed.

  (** ** Update *)
  Lemma updated_ext tb1 tb2 kc t r cols vals out t' : tb_tid tb1 = tb_tid tb2 -> tt_types (tb_tt tb1) = tt_types (tb_tt tb2) ->
    updated tb1 kc t r cols vals out t' -> updated tb2 kc t r cols vals out t'.
  Proof. unfold updated. intros -> ->. auto. Qed.

  Definition updates {S} (ti : typedinfo) (kc : list (nat * bool)) (fn : S -> row -> prog (S * (option upstruct + error)))
      (i : idtable) (t : tree) (s : S) (row : row) (r : res (S * option error)) (i' : idtable) (t' : tree) : Prop :=
    exists q, qrun i (fn s row) = (q, i') /\
      match q with
      | Ok (s', inl (Some u)) =>
          (structToColsVals ti u = Panic /\ r = Panic /\ t' = t) \/
          (exists cols vals, structToColsVals ti u = Ok (cols, vals) /\
             (r = Ok (s', None) /\ updated (table_of ti) kc t row cols vals ODone t' \/
              exists e, r = Ok (s', Some e) /\ e <> EOF /\ updated (table_of ti) kc t row cols vals (OErr e) t'))
      | Ok (s', inl None) => r = Ok (s', None) /\ t' = t
      | Ok (s', inr e) => r = Ok (s', Some e) /\ t' = t
      | Err e => r = Err e /\ t' = t
      | Panic => r = Panic /\ t' = t
      end.

  Lemma update_loops {S} ti kc (fn : S -> row -> prog (S * (option upstruct + error))) i t s l r i' t' :
    loops (updates ti kc fn) i t s l r i' t' -> visit_update ti kc fn i s l t r t'.
  Proof.
    induction 1 as [i t s|i t s row l s1 i1 t1 res i2 t2 (q & Hq & H) H' IH|i t s row l s1 e i1 t1 (q & Hq & H)
      |i t s row l e i1 t1 (q & Hq & H)|i t s row l i1 t1 (q & Hq & H)].
    - constructor.
    - destruct q as [[s2 [[u|]|e]]|e|].
      + destruct H as [(_ & H & _)|(cols & vals & E & [(H & U)|(e & H & _)])]; try discriminate. injection H as ->.
        eapply vu_done; eassumption.
      + destruct H as (E & ->). injection E as ->. eapply vu_skip; eassumption.
      + destruct H as (E & _). discriminate.
      + destruct H as (E & _). discriminate.
      + destruct H as (E & _). discriminate.
    - destruct q as [[s2 [[u|]|e']]|e'|].
      + destruct H as [(_ & H & _)|(cols & vals & E & [(H & U)|(e0 & H & Ne & U)])]; try discriminate. injection H as -> ->.
        replace (not_eof e0) with (Some e0) by (destruct e0; try reflexivity; congruence). eapply vu_fail; eassumption.
      + destruct H as (E & _). discriminate.
      + destruct H as (E & ->). injection E as -> ->. eapply vu_error; eassumption.
      + destruct H as (E & _). discriminate.
      + destruct H as (E & _). discriminate.
    - destruct q as [[s2 [[u|]|e']]|e'|].
      + destruct H as [(_ & H & _)|(cols & vals & E & [(H & U)|(e0 & H & Ne & U)])]; discriminate.
      + destruct H as (E & _). discriminate.
      + destruct H as (E & _). discriminate.
      + destruct H as (E & ->). injection E as ->. eapply vu_abort; eassumption.
      + destruct H as (E & _). discriminate.
    - destruct q as [[s2 [[u|]|e']]|e'|].
      + destruct H as [(E & _ & ->)|(cols & vals & E & [(H & U)|(e0 & H & Ne & U)])]; try discriminate. eapply vu_unknown; eassumption.
      + destruct H as (E & _). discriminate.
      + destruct H as (E & _). discriminate.
      + destruct H as (E & _). discriminate.
      + destruct H as (E & ->). eapply vu_panic; eassumption.
  Qed.

  Lemma structToColsVals_no_err ti u e : structToColsVals ti u <> Err e.
  Proof.
    induction u as [|[n v] u IH]; cbn [structToColsVals]; [discriminate|].
    destruct (fieldNameToColumn _ _ _); [|discriminate]. destruct (znth _ _); [|discriminate].
    destruct (fieldToValue c v) as [y|e0|] eqn:Ey; cbn [rbind]; [|exfalso|discriminate].
    - destruct (structToColsVals ti u); cbn [rbind]; try discriminate. intros [= ->]. now apply IH.
    - clear - Ey. unfold fieldToValue in Ey. cbv zeta in Ey.
      repeat match type of Ey with context [match ?c with _ => _ end] => destruct c; try discriminate end.
  Qed.

  Lemma info_known ti st : info_ok ti st -> Forall (fun ct => ct_type ct <> UnknownType) (ti_types ti).
  Proof.
    intros I0. pose proof (io_types _ _ I0) as H. clear I0. induction H as [|fd ct flds cts (tags & _ & H) H' IH]; constructor; auto.
    unfold fieldType in H. destruct (tagSize tags); [|discriminate]. cbv zeta in H.
    destruct (match fd_type fd with FTBase k => k | FTPtr k => k end); try discriminate;
      repeat match type of H with context [match ?c with _ => _ end] => destruct c; try discriminate end;
      injection H as <-; discriminate.
  Qed.

  Lemma cast_not_eof vt v : CastValue vt v <> Err EOF.
  Proof. unfold CastValue. cbv zeta. repeat match goal with |- context [match ?c with _ => _ end] => destruct c; try discriminate end. Qed.

  Lemma convert_not_eof cts r : ConvertRow cts r <> Err EOF.
  Proof.
    unfold ConvertRow. destruct (_ <? _); [discriminate|]. revert r. induction cts as [|ct cts IH]; intros [|v r]; try discriminate.
    cbn [convertRowLoop]. destruct (ConvertValue ct v) as [y|e|] eqn:Ev; cbn [rbind]; [| |discriminate].
    - specialize (IH r). destruct (convertRowLoop cts r); cbn [rbind]; congruence.
    - intros [= ->]. unfold ConvertValue in Ev. cbv zeta in Ev.
      pose proof (cast_not_eof (ct_type ct) v) as Nc. unfold rbind in Ev. destruct (CastValue (ct_type ct) v) as [z|e0|]; [clear Nc| |].
      2: { destruct v; try congruence; destruct (ct_notnull ct); discriminate. }
      all: repeat match type of Ev with context [match ?c with _ => _ end] => destruct c; try discriminate end.
  Qed.

  Lemma update_lemma {F : Float32Lib} {S} h w x t ti kc st mnS mxS mn mx (fn : S -> row -> prog (S * (option upstruct + error))) s :
    can_open h w x t ti kc -> info_ok ti st -> zlen (ti_types ti) < 2 ^ 32 ->
    bound_for ti st mnS mn -> bound_for ti st mxS mx -> (forall s r, quiet (fn s r)) ->
    (forall i s r s' u, fst (qrun i (fn s r)) = Ok (s', inl (Some u)) -> update_typed u) ->
    exists r w' lg t', exec w x (TypedTableUpdate ti mnS mxS fn s) = (r, w', lg) /\
      view w' x = Some t' /\ gentle_log x lg /\ opened x lg = closed x lg /\
      visit_update ti kc fn (idt_open w x ti) s (filter (in_range kc mn mx) (rows_in t (ti_tid ti))) t r t'.
  Proof.
    intros CO IO Hz Bmn Bmx Hq Hu. destruct (bound_facts _ _ _ _ Bmn) as [W1 L1]. destruct (bound_facts _ _ _ _ Bmx) as [W2 L2].
    unfold TypedTableUpdate.
    match goal with |- context [typedTableSelect _ _ _ ?f _] =>
      edestruct (exec_select HX HG h w x t ti kc mnS mxS mn mx f s (updates ti kc fn))
      as (r & w' & lg & t' & E & G1 & O1 & V1 & L3); [exact CO|exact (proj2 Bmn)|exact (proj2 Bmx)|exact W1|exact W2|exact L1|exact L2| |] end.
    2: { apply update_loops in L3. exists r, w', lg, t'. rewrite E. auto 8. }
    intros i j tb items h0 w0 t0 n it s0 HA Ht Hty Hk Hi HQ. cbv beta. rewrite exec_pbind.
    destruct (quiet_at x i j tb items h0 w0 t0 _ (fn s0 (it_row it)) HA (Hq _ _)) as (q & w1 & lg1 & E1 & G1 & O1 & C1 & A1 & Q1).
    rewrite E1. pose proof HQ as HQ'. rewrite (skipn_nth _ _ _ Hi) in HQ'. cbn [map] in HQ'.
    destruct q as [[s1 b]|e|]; [| |].
    2: { do 4 eexists. split; [reflexivity|]. do 3 (split; [assumption|]). split; [exact A1|]. split; [|exact I].
         exists (Err e). split; [exact Q1|]. auto. }
    2: { do 4 eexists. split; [reflexivity|]. do 3 (split; [assumption|]). split; [exact A1|]. split; [|exact I].
         exists Panic. split; [exact Q1|]. auto. }
    cbn [snd fst]. destruct b as [[u|]|e].
    2: { cbn [exec pret]. do 4 eexists. split; [reflexivity|]. rewrite app_nil_r. do 3 (split; [assumption|]). split; [exact A1|]. split.
         - exists (Ok (s1, inl None)). split; [exact Q1|]. auto.
         - eapply still_there_weaken. exact HQ'. }
    2: { cbn [exec pret]. do 4 eexists. split; [reflexivity|]. rewrite app_nil_r. do 3 (split; [assumption|]). split; [exact A1|].
         split; [|exact I]. exists (Ok (s1, inr e)). split; [exact Q1|]. auto. }
    destruct (current_at x i j tb kc items _ w1 t0 n it A1 Hk Hi) as (w2 & rr & E2 & M2 & I2 & A2 & R2 & R3 & R4).
    rewrite exec_pthen, exec_pbind. unfold call at 1. cbn [exec]. rewrite E2. cbn [exec pret]. cbn [fst]. rewrite M2.
    assert (gentle_log x [(Call x (CCurrent j), ODone)]) as G2 by (apply gentle_one; cbn; auto).
    unfold pbind at 1. cbn [pthen].
    destruct (structToColsVals ti u) as [[cols vals]|e|] eqn:Ecv; [| |].
    2: { exfalso. exact (structToColsVals_no_err _ _ _ Ecv). }
    2: { cbn [exec ppanic]. do 4 eexists. split; [reflexivity|]. cbn [app]. split; [|split; [|split; [|split; [|split]]]].
         - apply gentle_app; [exact G1|exact G2].
         - rewrite opened_app, O1. cnt.
         - rewrite closed_app, C1. cnt.
         - rewrite <- app_assoc in A2. exact A2.
         - exists (Ok (s1, inl (Some u))). split; [rewrite I2; exact Q1|]. left. auto.
         - exact I. }
    assert (update_typed u) as Hut by (eapply Hu; rewrite Q1; reflexivity).
    destruct (colsVals_facts ti u cols vals Hz Hut Ecv) as (F1 & F2 & F3).
    pose proof A2 as [B1 B2 B3 B4].
    assert (In (it_row it) (rows_in t0 (ti_tid ti))) as Hin by (inversion HQ' as [F0 _]; now inversion F0).
    rewrite <- Ht in Hin. rewrite <- Hty in F3.
    assert (nth_error (tables_of w2 x) (rr_tbl rr) = Some tb) as B3' by (now rewrite R3).
    destruct (update_exact HX HG _ w2 x t0 _ rr tb kc cols vals (it_row it) B1 B2 R2 B3' Hk F2 F1 F3 Hin R4) as (t1 & V3 & US).
    destruct (update_updated HX HG _ w2 x t0 _ rr tb kc cols vals (it_row it) B1 B2 R2 B3' Hk F2 F1 F3 Hin R4) as (t1' & V3' & UD).
    destruct (step w2 (Call x (CUpdate (length (refs_of w1 x)) cols vals))) as [out w3] eqn:E3. cbn [fst snd] in V3, US, V3', UD.
    assert (t1' = t1) as -> by congruence. clear V3'.
    assert (gentle_log x [(Call x (CUpdate (length (refs_of w1 x)) cols vals), out)]) as G3 by (apply gentle_one; cbn; auto).
    destruct (change_live w2 x t0 (CUpdate (length (refs_of w1 x)) cols vals) out w3 (ran_wok _ _ (proj1 B1)) B2 I E3) as (U1 & U2 & U3 & U4).
    pose proof (at_row_ext x i j tb items _ w2 t0 _ _ w3 t1 A2 (run_one _ _ _ _ E3) G3 V3 U1 U2) as A3.
    rewrite <- !app_assoc in A3. cbn [app] in A3.
    assert ((out = ODone \/ exists e, out = OErr e /\ e <> EOF) /\
            (out = ODone -> exists rest, Permutation (rows_in t0 (tb_tid tb)) (it_row it :: rest) /\ forall q, In q rest -> In q (rows_in t1 (tb_tid tb))))
      as [Hout Hrest].
    { destruct US as (rest & P1 & P2 & P3). destruct (ColumnKeyUpdated (keys_of kc) cols).
      - destruct (ConvertRow (tt_types (tb_tt tb)) (assign (it_row it) cols vals)) as [n0|e|] eqn:Ec.
        + destruct P3 as [(_ & -> & P3)|(_ & -> & P3)]; (split; [first [now left|right; eexists; split; [reflexivity|discriminate]]|]); [|discriminate]. intros _. exists rest. split; [exact P1|].
          intros q Hq0. eapply Permutation_in; [apply Permutation_sym; exact P3|]. now right.
        + destruct P3 as [-> P3]. split; [|discriminate]. right. exists e. split; [reflexivity|]. intros ->. exact (convert_not_eof _ _ Ec).
        + exfalso. eapply convert_no_panic; [|exact Ec]. rewrite Hty. eapply info_known; exact IO.
      - destruct P3 as [-> P3]. split; [auto|]. intros _. exists rest. split; [exact P1|].
        intros q Hq0. eapply Permutation_in; [apply Permutation_sym; exact P3|]. now right. }
    unfold call. cbn [exec fst snd]. rewrite E3.
    assert (updated (table_of ti) kc t0 (it_row it) cols vals out t1) as UD' by (eapply updated_ext; [| |exact UD]; assumption).
    assert (gentle_log x (lg1 ++ [(Call x (CCurrent j), ODone); (Call x (CUpdate (length (refs_of w1 x)) cols vals), out)])) as GL.
    { apply gentle_app; [exact G1|]. apply (gentle_app x [_] [_]); assumption. }
    destruct Hout as [->|(e & -> & Ne)]; cbn [exec pret pfail].
    - do 4 eexists. split; [reflexivity|]. cbn [app]. split; [exact GL|]. split; [|split; [|split; [|split]]].
      + rewrite opened_app, O1. cnt.
      + rewrite closed_app, C1. cnt.
      + exact A3.
      + exists (Ok (s1, inl (Some u))). split; [rewrite U4, I2; exact Q1|]. right. exists cols, vals. split; [exact Ecv|]. left. auto.
      + destruct (Hrest eq_refl) as (rest & P1 & P2).
        pose proof (table_known' HX HG _ _ _ _ tb kc B1 B2 (nth_error_In _ _ B3) Hk) as K. apply rows_wf in K. rewrite Ht in K, P1, P2.
        eapply still_there_tail; [exact K|exact HQ'|exact P1|exact P2].
    - do 4 eexists. split; [reflexivity|]. cbn [app]. split; [exact GL|]. split; [|split; [|split; [|split]]].
      + rewrite opened_app, O1. cnt.
      + rewrite closed_app, C1. cnt.
      + exact A3.
      + exists (Ok (s1, inl (Some u))). split; [rewrite U4, I2; exact Q1|]. right. exists cols, vals. split; [exact Ecv|]. right. eauto.
      + exact I.
  Qed.

  (** ** Lookup *)
  Lemma MakeKey_wf_fits h w x t tb kc r : known h w x t tb kc -> In r (rows_in t (tb_tid tb)) ->
    Forall wf_value r /\ key_fits kc r.
  Proof.
    intros K H. rewrite rows_in_of_rel in H. apply in_map_iff in H as (it & <- & H). apply of_rel_In in H as [Hi Er].
    destruct (k_item _ _ _ _ _ _ it K Hi Er) as (K1 & K2 & K3). split; [exact K3|].
    eapply MakeKey_Some_fits; [|exact K1]. exact (d_small _ _ _ _ _ _ _ _ _ (k_def _ _ _ _ _ _ K)).
  Qed.

  Lemma in_range_same kc m r : small_cols kc -> Forall wf_value m -> Forall wf_value r -> key_fits kc m -> key_fits kc r ->
    in_range kc (Some m) (Some m) r = true <-> same_key kc m r.
  Proof.
    intros Sm Wm Wr Fm Fr. unfold in_range.
    destruct (key_order_lemma kc m r Fm Fr Wm Wr) as (k1 & k2 & E1 & E2 & <-).
    rewrite <- (MakeKey_compare kc r m k2 k1 Sm Wr Wm E2 E1), (bytes_compare_antisym k1 k2).
    rewrite <- (key_same kc m r k1 k2 Sm Wm Wr E1 E2), <- bytes_compare_eq.
    destruct (bytes_compare k1 k2); cbn; split; congruence.
  Qed.


  Definition key_at (kc : list (nat * bool)) (r : row) : option bytes := MakeKey (keys_of kc) r.

  Lemma same_key_at kc r1 r2 : small_cols kc -> Forall wf_value r1 -> Forall wf_value r2 -> key_fits kc r1 -> key_fits kc r2 ->
    same_key kc r1 r2 <-> key_at kc r1 = key_at kc r2.
  Proof.
    intros Sm W1 W2 F1 F2. destruct (key_order_lemma kc r1 r2 F1 F2 W1 W2) as (k1 & k2 & E1 & E2 & _).
    unfold key_at. rewrite <- (key_same kc r1 r2 k1 k2 Sm W1 W2 E1 E2), E1, E2. split; congruence.
  Qed.

  Lemma lookup_lemma {F : Float32Lib} h w x t ti kc st g m :
    can_open h w x t ti kc -> of_struct st g -> structToRow ti (Some g) = Ok (Some m) ->
    exists res w' lg, exec w x (TypedTableLookup ti g) = (res, w', lg) /\
      view w' x = Some t /\ gentle_log x lg /\ opened x lg = closed x lg /\
      ((exists r, In r (rows_in t (ti_tid ti)) /\ same_key kc m r /\
          (forall r', In r' (rows_in t (ti_tid ti)) -> same_key kc m r' -> r' = r) /\
          res = rbind (RowToStruct ti r g) (fun g' => Ok (g', None))) \/
       ((forall r, In r (rows_in t (ti_tid ti)) -> ~ same_key kc m r) /\ res = Ok (g, Some EOF))).
  Proof.
    intros CO Hg Em.
    assert (bound_for ti st (Some g) (Some m)) as B by (split; [intros g0 [= <-]; exact Hg|exact Em]).
    unfold TypedTableLookup. rewrite exec_pbind.
    set (fn := fun (s : bool * gostruct) row => if fst s then ppanic else
        do! g := PRet (RowToStruct ti row (snd s)) in pret ((true, g), @None error)).
    destruct (select_lemma h w x t ti kc st (Some g) (Some g) (Some m) (Some m) fn (false, g) CO B B) as (w' & lg & E & V & G1 & O1).
    { intros [b s0] r. unfold fn. cbn [fst snd]. destruct b; [constructor|]. unfold pbind. cbn [pthen].
      destruct (RowToStruct ti r s0); constructor. }
    unfold TypedTableSelect in E.
    match type of E with ?a = _ => match goal with |- context [exec w x ?p] => change (exec w x p) with a end end. rewrite E. clear E.
    destruct (exec_open HX HG _ _ _ _ _ _ CO) as (i & tb & w1 & lg1 & _ & _ & _ & _ & [A1 A2 A3 A4 A5 A6] & _).
    pose proof (table_known' HX HG _ _ _ _ tb kc A3 A4 (nth_error_In _ _ A5) A6) as K.
    assert (forall r, In r (rows_in t (ti_tid ti)) -> Forall wf_value r /\ key_fits kc r) as Hr.
    { intros r Hr. rewrite <- A1 in Hr. eapply MakeKey_wf_fits; eassumption. }
    assert (key_fits kc m) as Fm.
    { destruct (bound_facts _ _ _ _ B) as [_ Lm]. specialize (Lm m eq_refl). intros c d Hc.
      pose proof (proj1 (Forall_forall _ _) (d_cols _ _ _ _ _ _ _ _ _ (k_def _ _ _ _ _ _ K)) _ Hc) as Hlt. cbn [fst] in Hlt.
      rewrite A2, <- Lm in Hlt. split; [exact Hlt|]. exact (proj1 (Forall_forall _ _) (proj1 A6) _ Hc). }
    assert (Forall wf_value m) as Wm by (destruct (bound_facts _ _ _ _ B) as [Wm _]; exact (Wm m eq_refl)).
    assert (forall r, In r (rows_in t (ti_tid ti)) -> in_range kc (Some m) (Some m) r = true <-> same_key kc m r) as Hs.
    { intros r Hin. destruct (Hr r Hin) as [W Fr]. apply in_range_same; try assumption. exact (proj1 A6). }
    pose proof (rows_ordered HX HG _ _ _ _ tb kc A3 A4 (nth_error_In _ _ A5) A6) as S. rewrite A1 in S.
    apply (sorted_filter _ (in_range kc (Some m) (Some m))) in S.
    destruct (filter (in_range kc (Some m) (Some m)) (rows_in t (ti_tid ti))) as [|r l] eqn:Ef.
    - cbn [visit exec]. do 3 eexists. split; [reflexivity|]. split; [exact V|]. rewrite app_nil_r. split; [exact G1|]. split; [exact O1|].
      right. split; [|reflexivity]. intros r Hin Hsk. apply Hs in Hsk; [|exact Hin].
      assert (In r []) as []. rewrite <- Ef. apply filter_In. auto.
    - assert (forall r', In r' (r :: l) -> In r' (rows_in t (ti_tid ti)) /\ same_key kc m r') as Hl.
      { intros r' Hin. rewrite <- Ef in Hin. apply filter_In in Hin as [Hin Hf]. split; [exact Hin|]. apply Hs; assumption. }
      assert (l = []) as ->.
      { destruct l as [|r2 l]; [reflexivity|exfalso]. apply StronglySorted_inv in S as [_ S]. inversion S as [|? ? S1 _]; subst.
        destruct (Hl r (or_introl eq_refl)) as [I1 K1]. destruct (Hl r2 (or_intror (or_introl eq_refl))) as [I2 K2].
        destruct (Hr r I1) as [W1 F1]. destruct (Hr r2 I2) as [W2 F2].
        apply same_key_at in K1; try assumption; [|exact (proj1 A6)]. apply same_key_at in K2; try assumption; [|exact (proj1 A6)].
        rewrite (proj2 (key_order_eq kc r r2 W1 W2)) in S1; [discriminate|].
        apply same_key_at; try assumption; [exact (proj1 A6)|congruence]. }
      destruct (Hl r (or_introl eq_refl)) as [I1 K1].
      exists (rbind (RowToStruct ti r g) (fun g' => Ok (g', None))). cbn [visit qrun]. unfold fn at 1. cbn [fst snd]. unfold pbind at 1. cbn [pthen].
      destruct (RowToStruct ti r g) as [g'|e|] eqn:Eg; cbn [rbind pret qrun exec]; do 2 eexists; (split; [reflexivity|]); (split; [exact V|]);
        rewrite ?app_nil_r; (split; [exact G1|]); (split; [exact O1|]); left; exists r; (split; [exact I1|]); (split; [exact K1|]);
        (split; [|rewrite Eg; reflexivity]); intros r' Hin Hsk; apply Hs in Hsk; try assumption;
        (assert (In r' [r]) as [<-|[]] by (rewrite <- Ef; apply filter_In; auto); reflexivity).
  Qed.

  (** ** Insert *)
  Lemma unique_inserts kc old new tail res (Lf : list row) :
    (forall r1 r2, In r1 Lf -> In r2 Lf -> same_key kc r1 r2 -> key_at kc r1 = key_at kc r2) ->
    NoDup (map (key_at kc) Lf) -> Permutation Lf (new ++ old) ->
    forall have', (forall old', Permutation Lf old' -> inserts kc old' tail res (have' old')) ->
    inserts kc old (new ++ tail) res (have' (rev new ++ old)).
  Proof.
    intros Hsk Hnd. revert old. induction new as [|a new IH]; intros old P have' Ht; cbn [app rev].
    - apply Ht. exact P.
    - apply ins_next.
      + intros (r0 & H0 & H1). pose proof (Permutation_in a (Permutation_sym P) (or_introl eq_refl)) as Ha.
        assert (In r0 Lf) as Hr0. { eapply Permutation_in; [apply Permutation_sym; exact P|]. right. apply in_or_app. auto. }
        pose proof (Hsk a r0 Ha Hr0 H1) as Ek.
        apply (Permutation_map (key_at kc)) in P. apply (Permutation_NoDup P) in Hnd. cbn [app map] in Hnd.
        inversion Hnd as [|? ? N1 _]; subst. apply N1. rewrite Ek. apply in_map. apply in_or_app. auto.
      + rewrite <- app_assoc. cbn [app]. apply IH; [|exact Ht]. eapply Permutation_trans; [exact P|]. cbn [app]. apply Permutation_middle.
  Qed.

  Lemma text_fits_dec n v : text_fits n v \/ ~ text_fits n v.
  Proof.
    destruct v as [b|k i|k p|s|[s|]|k [[ | | |s| | | ]|]|]; cbn [text_fits]; auto;
      match goal with |- zlen ?s <= ?n \/ _ => destruct (Z_le_gt_dec (zlen s) n); [left; assumption|right; lia] end.
  Qed.

  Lemma Forall2_dec_fits cts : forall vs, fields_fit cts vs \/ ~ fields_fit cts vs.
  Proof.
    unfold fields_fit. induction cts as [|ct cts IH]; intros [|v vs]; [left; constructor|right; intros H; inversion H..|].
    destruct (text_fits_dec (ct_size ct) v) as [D|D]; [|right; intros H; inversion H; contradiction].
    destruct (IH vs) as [D'|D']; [left; constructor; assumption|right; intros H; inversion H; contradiction].
  Qed.

  Lemma unique_keys h w x t i tb kc : orderly (tb_tid tb) h w -> view w x = Some t -> nth_error (tables_of w x) i = Some tb -> keyed tb kc ->
    (forall r1 r2, In r1 (rows_in t (tb_tid tb)) -> In r2 (rows_in t (tb_tid tb)) -> same_key kc r1 r2 -> key_at kc r1 = key_at kc r2) /\
    NoDup (map (key_at kc) (rows_in t (tb_tid tb))).
  Proof.
    intros O V Hi Hk. pose proof (table_known' HX HG _ _ _ _ tb kc O V (nth_error_In _ _ Hi) Hk) as K.
    assert (forall r1 r2, In r1 (rows_in t (tb_tid tb)) -> In r2 (rows_in t (tb_tid tb)) -> same_key kc r1 r2 <-> key_at kc r1 = key_at kc r2) as H.
    { intros r1 r2 H1 H2. destruct (MakeKey_wf_fits _ _ _ _ _ _ _ K H1). destruct (MakeKey_wf_fits _ _ _ _ _ _ _ K H2).
      apply same_key_at; try assumption. exact (proj1 Hk). }
    split; [intros; apply H; assumption|]. apply NoDup_nth_error. intros a b Ha E. rewrite map_length in Ha.
    rewrite !nth_error_map in E. destruct (nth_error (rows_in t (tb_tid tb)) a) as [r1|] eqn:E1; [|apply nth_error_None in E1; lia].
    destruct (nth_error (rows_in t (tb_tid tb)) b) as [r2|] eqn:E2; [|discriminate]. cbn [option_map] in E.
    eapply (rows_unique HX HG _ _ _ _ tb kc O V (nth_error_In _ _ Hi) Hk); [exact E1|exact E2|].
    apply H; [eapply nth_error_In; eassumption..|congruence].
  Qed.

  Lemma insert_lemma {F : Float32Lib} (HF : Float32Lib_ok F) h w x t ti kc st (l : list gostruct) rows :
    can_open h w x t ti kc -> info_ok ti st -> Forall (of_struct st) l -> Forall2 (fun g r => structToRow ti (Some g) = Ok (Some r)) l rows ->
    exists res w' lg t' have', exec w x (TypedTableInsert ti (map Some l)) = (res, w', lg) /\
      view w' x = Some t' /\ gentle_log x lg /\ opened x lg = closed x lg /\ only_table (ti_tid ti) t t' /\
      inserts kc (rows_in t (ti_tid ti)) rows res have' /\ Permutation (rows_in t' (ti_tid ti)) have'.
  Proof.
    intros CO IO Hl Hrows.
    destruct (exec_open HX HG _ _ _ _ _ _ CO) as (i & tb & w1 & lg1 & E1 & G1 & O1 & C1 & [A1 A2 A3 A4 A5 A6] & _).
    assert (structsToRows ti (map Some l) = Ok rows) as Es.
    { clear - Hrows. induction Hrows as [|g r l rows H H' IH]; [reflexivity|]. cbn [map structsToRows]. rewrite H. cbn [rbind]. rewrite IH. reflexivity. }
    assert (Forall (Forall wf_value) rows /\ Forall (fun r => ConvertRow (ti_types ti) r = Ok r) rows) as [W Cv].
    { clear - Hrows Hl IO HF. induction Hrows as [|g r l rows H H' IH]; [split; constructor|]. inversion Hl as [|? ? Hg Hl']; subst.
      destruct (IH Hl') as [IW IC].
      assert (struct_fits ti g) as Hf.
      { unfold struct_fits. destruct (Forall2_dec_fits (ti_types ti) (gs_fields g)) as [D|D]; [exact D|exfalso].
        rewrite (struct_long HF ti st g IO Hg D) in H. discriminate. }
      destruct (struct_row HF ti st g IO Hg Hf) as (r' & R1 & R2 & R3 & _). rewrite R1 in H. injection H as <-.
      split; constructor; auto. apply admits_converts; [exact (info_u32 _ _ IO)|exact R2]. }
    unfold TypedTableInsert. rewrite exec_pbind, E1, Es. unfold pbind at 1. cbn [pthen]. rewrite exec_pbind. unfold call. cbn [exec].
    destruct (step w1 (Call x (CInsert i rows))) as [out w2] eqn:E2.
    assert (gentle x (Call x (CInsert i rows))) as Gn by (cbn; auto).
    destruct (insert_no_panic HX HG _ w1 x t i tb kc rows out w2 A3 A4 A5 A6) as [Ho|(e & Ho)]; [rewrite A2; eapply info_known; exact IO|exact E2| |]; subst out.
    - destruct (insert_exact HX HG _ w1 x t i tb kc rows w2 A3 A4 A5 A6 E2) as (t' & new & V & Tb & Fn & P & Ot).
      assert (new = rows) as ->.
      { clear - Fn Cv A2. rewrite A2 in Fn. induction Fn as [|a b la lb Hab _ IH]; [reflexivity|]. inversion Cv; subst. f_equal; [congruence|auto]. }
      cbn [exec pret fst]. exists (Ok tt), w2. eexists. exists t', (rev rows ++ rows_in t (ti_tid ti)). split; [reflexivity|].
      rewrite <- A1. split; [exact V|]. split; [apply gentle_app; [exact G1|apply gentle_one; exact Gn]|].
      split; [rewrite opened_app, closed_app, O1, C1; cnt|]. split; [exact Ot|].
      assert (Permutation (rev rows ++ rows_in t (tb_tid tb)) (rows ++ rows_in t (tb_tid tb))) as Pr.
      { apply Permutation_app_tail. apply Permutation_sym, Permutation_rev. }
      split; [|eapply Permutation_trans; [exact P|apply Permutation_sym; exact Pr]].
      rewrite <- (app_nil_r rows) at 1.
      assert (orderly (tb_tid tb) ((h ++ lg1) ++ [(Call x (CInsert i rows), ODone)]) w2) as A3'.
      { eapply orderly_ext; [exact A3|apply run_one; exact E2|apply gentle_one; exact Gn]. }
      assert (nth_error (tables_of w2 x) i = Some tb) as A5' by (now rewrite Tb).
      destruct (unique_keys _ w2 x t' i tb kc A3' V A5' A6) as [U1 U2].
      apply (unique_inserts kc (rows_in t (tb_tid tb)) rows [] (Ok tt) (rows_in t' (tb_tid tb)) U1 U2 P (fun l => l)).
      intros old' _. constructor.
    - destruct (insert_fails HX HG _ w1 x t i tb kc rows e w2 A3 A4 A5 A6 W E2) as (t' & rs1 & bad & rs2 & new & V & -> & Fn & P & Ot & Hb).
      apply Forall_app in Cv as [Cv1 Cv2]. inversion Cv2 as [|? ? Cb _]; subst.
      assert (new = rs1) as ->.
      { clear - Fn Cv1 A2. rewrite A2 in Fn. induction Fn as [|a b la lb Hab _ IH]; [reflexivity|]. inversion Cv1; subst. f_equal; [congruence|auto]. }
      rewrite A2, Cb in Hb. destruct Hb as [Hb|(-> & n & r0 & Hn & Hin & Hsk)]; [discriminate|]. injection Hn as <-.
      cbn [exec pfail]. exists (Err ErrDuplicateKey), w2. eexists. exists t', (rev rs1 ++ rows_in t (ti_tid ti)). split; [reflexivity|].
      rewrite <- A1. split; [exact V|]. split; [apply gentle_app; [exact G1|apply gentle_one; exact Gn]|].
      split; [rewrite opened_app, closed_app, O1, C1; cnt|]. split; [exact Ot|].
      assert (Permutation (rev rs1 ++ rows_in t (tb_tid tb)) (rs1 ++ rows_in t (tb_tid tb))) as Pr.
      { apply Permutation_app_tail. apply Permutation_sym, Permutation_rev. }
      split; [|eapply Permutation_trans; [exact P|apply Permutation_sym; exact Pr]].
      assert (orderly (tb_tid tb) ((h ++ lg1) ++ [(Call x (CInsert i (rs1 ++ bad :: rs2)), OErr ErrDuplicateKey)]) w2) as A3'.
      { eapply orderly_ext; [exact A3|apply run_one; exact E2|apply gentle_one; exact Gn]. }
      destruct (change_live w1 x t (CInsert i (rs1 ++ bad :: rs2)) (OErr ErrDuplicateKey) w2 (ran_wok _ _ (proj1 A3)) A4 I E2) as (Tb & _).
      assert (nth_error (tables_of w2 x) i = Some tb) as A5' by (now rewrite Tb).
      destruct (unique_keys _ w2 x t' i tb kc A3' V A5' A6) as [U1 U2].
      apply (unique_inserts kc (rows_in t (tb_tid tb)) rs1 (bad :: rs2) (Err ErrDuplicateKey) (rows_in t' (tb_tid tb)) U1 U2 P (fun l => l)).
      intros old' Po. apply ins_duplicate. exists r0. split; [|exact Hsk].
      eapply Permutation_in; [|exact Hin]. eapply Permutation_trans; [apply Permutation_sym; exact P|exact Po].
  Qed.
End Bodies.

(** ** The statements *)
Lemma columns_typed ti st : made_for ti st -> Forall2 column_type_for (st_fields st) (ti_types ti).
Proof.
  intros M. pose proof (io_types _ _ (made_info _ _ M)) as H. clear M. induction H as [|fd ct flds cts (tags & _ & H) H' IH]; constructor; auto.
  unfold fieldType in H. unfold column_type_for. destruct (tagSize tags); [|discriminate]. cbv zeta in H.
  destruct (tag tags (str "notnull")); destruct (fd_type fd) as [[]|[]]; try discriminate; injection H as <-; cbn; auto.
Qed.

Lemma round_trip {F : Float32Lib} : Float32Lib_ok F -> forall ti st g g0, made_for ti st -> of_struct st g -> texts_fit ti g ->
  Forall (fun fd => readable (fd_type fd)) (st_fields st) -> gs_type g0 = st_name st ->
  exists r g', structToRow ti (Some g) = Ok (Some r) /\ RowToStruct ti r g0 = Ok g' /\
    gs_type g' = gs_type g /\ length (gs_fields g') = length (gs_fields g) /\
    forall i ct v v', nth_error (ti_types ti) i = Some ct -> nth_error (gs_fields g) i = Some v ->
      nth_error (gs_fields g') i = Some v' -> same_field ct v v'.
Proof.
  intros HF ti st g g0 M Hg Hf Hr H0. destruct (struct_row HF ti st g (made_info _ _ M) Hg Hf) as (r & R1 & _ & _ & R2).
  destruct (R2 Hr g0 H0) as (g' & G'). exists r, g'. split; [exact R1|exact G'].
Qed.

Lemma row_admitted {F : Float32Lib} {X : FloatLib} : Float32Lib_ok F -> forall ti st g, made_for ti st -> of_struct st g -> texts_fit ti g ->
  exists r, structToRow ti (Some g) = Ok (Some r) /\ Forall2 admits (ti_types ti) r /\ ConvertRow (ti_types ti) r = Ok r.
Proof.
  intros HF ti st g M Hg Hf. pose proof (made_info _ _ M) as IO. destruct (struct_row HF ti st g IO Hg Hf) as (r & R1 & R2 & _).
  exists r. split; [exact R1|]. split; [exact R2|]. apply admits_converts; [exact (info_u32 _ _ IO)|exact R2].
Qed.

Lemma text_too_long {F : Float32Lib} : Float32Lib_ok F -> forall ti st g, made_for ti st -> of_struct st g -> ~ texts_fit ti g ->
  structToRow ti (Some g) = Panic.
Proof. intros HF ti st g M Hg Hf. exact (struct_long HF ti st g (made_info _ _ M) Hg Hf). Qed.

Lemma read_panics {F : Float32Lib} ti st g r g0 i fd k v : made_for ti st -> of_struct st g -> structToRow ti (Some g) = Ok (Some r) ->
  nth_error (st_fields st) i = Some fd -> ~ readable (fd_type fd) -> nth_error (gs_fields g) i = Some (FPtr k (Some v)) ->
  gs_type g0 = st_name st -> RowToStruct ti r g0 = Panic.
Proof.
  intros M [Hn Hg] E Hi Hr Hv H0. pose proof (made_info _ _ M) as IO. unfold structToRow in E. rewrite (io_typ _ _ IO), Hn, (proj2 (bytes_eqb_eq _ _) eq_refl) in E.
  destruct (fieldsToRow (ti_types ti) (gs_fields g)) as [r'| |] eqn:E1; try discriminate. cbn [rbind] in E. injection E as ->.
  unfold RowToStruct. rewrite (io_typ _ _ IO), H0, (proj2 (bytes_eqb_eq _ _) eq_refl).
  now rewrite (row_unreadable _ _ _ r i fd k v (io_types _ _ IO) Hg E1 Hi Hr Hv).
Qed.

Lemma typed_update {X : FloatLib} {L : CaseLib} {G : GobLib} {F : Float32Lib} : FloatLib_ok X -> GobLib_ok G ->
  forall S h w x t ti kc st mnS mxS mn mx (fn : S -> row -> prog (S * (option upstruct + error))) s,
  can_open h w x t ti kc -> made_for ti st -> zlen (ti_types ti) < 2 ^ 32 ->
  bound_for ti st mnS mn -> bound_for ti st mxS mx -> (forall s r, quiet (fn s r)) ->
  (forall i s r s' u, fst (qrun i (fn s r)) = Ok (s', inl (Some u)) -> update_typed u) ->
  exists r w' lg t', exec w x (TypedTableUpdate ti mnS mxS fn s) = (r, w', lg) /\
    view w' x = Some t' /\ gentle_log x lg /\ opened x lg = closed x lg /\
    visit_update ti kc fn (idt_open w x ti) s (filter (in_range kc mn mx) (rows_in t (ti_tid ti))) t r t'.
Proof. intros. eapply update_lemma; eauto. now apply made_info. Qed.

Lemma typed_insert {X : FloatLib} {L : CaseLib} {G : GobLib} {F : Float32Lib} : FloatLib_ok X -> GobLib_ok G -> Float32Lib_ok F ->
  forall h w x t ti kc st (l : list gostruct) rows,
  can_open h w x t ti kc -> made_for ti st -> Forall (of_struct st) l ->
  Forall2 (fun g r => structToRow ti (Some g) = Ok (Some r)) l rows ->
  exists res w' lg t' have', exec w x (TypedTableInsert ti (map Some l)) = (res, w', lg) /\
    view w' x = Some t' /\ gentle_log x lg /\ opened x lg = closed x lg /\ only_table (ti_tid ti) t t' /\
    inserts kc (rows_in t (ti_tid ti)) rows res have' /\ Permutation (rows_in t' (ti_tid ti)) have'.
Proof. intros. eapply insert_lemma; eauto. now apply made_info. Qed.

(** What was executed, and that it can be gone on from there. *)
Lemma typed_goes_on {X : FloatLib} {L : CaseLib} {G : GobLib} A h w x t ti kc (p : prog A) r w' lg :
  can_open h w x t ti kc -> exec w x p = (r, w', lg) -> gentle_log x lg ->
  run w (map fst lg) = (map snd lg, w') /\ orderly (ti_tid ti) (h ++ lg) w'.
Proof.
  intros CO E Gl. pose proof (exec_run x p w r w' lg E) as R.
  split; [exact R|]. eapply orderly_ext; [exact (co_orderly _ _ _ _ _ _ CO)|exact R|exact Gl].
Qed.
