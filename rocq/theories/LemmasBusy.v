(** Select, update and delete on a table of structs with a function that uses the
    store itself. *)

From Verif Require Import ModelTyped SpecTyped SpecBusy LemmasBase LemmasKey LemmasValue LemmasTree LemmasStore LemmasWorld
  LemmasHistory LemmasSerial LemmasTable LemmasContents LemmasTableFacts LemmasTableCalls LemmasTableTypes LemmasRows LemmasTyped
  LemmasExec LemmasSelect LemmasTypedTable.

Section Busy.
  Context {X : FloatLib} {L : CaseLib} {G : GobLib}.
  Context (HX : FloatLib_ok X) (HG : GobLib_ok G).

  (** The row set is at a position, in a state that occurs. *)
  Definition placed (x j : nat) (rs : rowset) (n : nat) (w : world) : Prop := wok w /\ at_position w x j rs n.

  Lemma placed_step x j rs n w o out w' : placed x j rs n w -> step w o = (out, w') -> o <> Call x (CNext j) -> o <> Call x (CClose j) -> placed x j rs n w'.
  Proof.
    intros [K (tx & rs1 & F & Hl & Hi & I1 & I2 & I3)] E N1 N2. apply step_cases in E; [|exact K]. split; [exact (wok_step _ _ _ _ K E)|].
    destruct (LemmasRows.open_step w o out w' x tx j rs1 K E F Hl Hi) as (tx' & rs' & F' & Hl' & Hi' & J1 & J2 & _ & J3 & _); [lia|exact N2|].
    exists tx', rs'. repeat (split; [assumption || congruence|]). rewrite (J3 N1). exact I3.
  Qed.
  Lemma placed_next x j rs n w : placed x j rs n w -> (n <= length (rs_items rs))%nat ->
    exists w', step w (Call x (CNext j)) = (yields rs n, w') /\ placed x j rs (Datatypes.S n) w'.
  Proof.
    intros [K (tx & rs1 & F & Hl & Hi & I1 & I2 & I3)] Hn. destruct (step w (Call x (CNext j))) as [out w'] eqn:E. exists w'. apply step_cases in E; [|exact K].
    destruct (LemmasRows.open_step w _ out w' x tx j rs1 K E F Hl Hi) as (tx' & rs' & F' & Hl' & Hi' & J1 & J2 & _ & _ & J4); [lia|discriminate|].
    destruct (J4 eq_refl) as [-> J5]. split.
    - rewrite I3, Nat2Z.id. f_equal. now apply yields_at.
    - split; [exact (wok_step _ _ _ _ K E)|]. exists tx', rs'. repeat (split; [assumption || congruence|]). rewrite J5, I3, I1. unfold zlen. lia.
  Qed.

  Lemma exec_spares {A} x j rs n (p : prog A) : spares j p -> forall w r w' lg, placed x j rs n w -> exec w x p = (r, w', lg) -> placed x j rs n w'.
  Proof.
    induction 1 as [r0|c k N1 N2 Hk IH|s q k Hk IH|i k Hk IH]; intros w r w' lg P E; cbn [exec] in E.
    - now injection E as <- <- <-.
    - destruct (step w (Call x c)) as [out w1] eqn:E1. destruct (exec w1 x _) as [[r1 w2] h1] eqn:E2. injection E as <- <- <-.
      refine (IH _ _ _ _ _ _ _ _ E2). eapply placed_step; [exact P|exact E1|congruence..].
    - destruct (step w (Intern s q)) as [out w1] eqn:E1. destruct (exec w1 x _) as [[r1 w2] h1] eqn:E2. injection E as <- <- <-.
      refine (IH _ _ _ _ _ _ E2). eapply placed_step; [exact P|exact E1|discriminate..].
    - exact (IH _ _ _ _ _ P E).
  Qed.

  Lemma placed_view x j rs n w : placed x j rs n w -> exists t rs', view w x = Some t /\ nth_error (rowsets_of w x) j = Some rs' /\
    rs_items rs' = rs_items rs /\ rs_next rs' = Z.of_nat (Nat.min n (length (rs_items rs))).
  Proof.
    intros [K (tx & rs1 & F & Hl & Hi & I1 & I2 & I3)]. destruct (wk_live _ K x tx F Hl) as (t & Hs & _). pose proof (view_sees w x tx t F Hs) as V.
    exists t, rs1. split; [exact V|]. split; [unfold rowsets_of; now rewrite F|]. now split.
  Qed.

  (** The loop, with what is done for a row. *)
  Lemma loop_visits {S} x j rs fn (body : world -> S -> row -> res (S * option error) -> world -> Prop) : rs_cols rs = None ->
    (forall n it w s, nth_error (rs_items rs) n = Some it -> placed x j rs (Datatypes.S n) w ->
      exists q w' lg, exec w x (fn s j (it_row it)) = (q, w', lg) /\ placed x j rs (Datatypes.S n) w' /\ body w s (it_row it) q w') ->
    forall m n w s, (n + m = length (rs_items rs))%nat -> placed x j rs n w ->
    exists q w' lg, exec w x (selectLoop (Datatypes.S m) j fn s) = (q, w', lg) /\ (exists n', placed x j rs n' w') /\
      visiting x j body w s (map it_row (skipn n (rs_items rs))) q w'.
  Proof.
    intros HC HB. induction m as [|m IH]; intros n w s Hn P; (destruct (placed_next _ _ _ _ _ P) as (w1 & E1 & P1); [lia|]).
    - cbn [selectLoop]. unfold callNext. cbn [pthen exec]. rewrite E1. unfold yields in *. rewrite (proj2 (nth_error_None (rs_items rs) n)) in * by lia. cbn [pthen pfail exec pret].
      do 3 eexists. split; [reflexivity|]. split; [now exists (Datatypes.S n)|]. rewrite skipn_all2 by lia. now constructor.
    - destruct (nth_error (rs_items rs) n) as [it|] eqn:En; [|apply nth_error_None in En; lia]. change (exec w x (selectLoop (Datatypes.S (Datatypes.S m)) j fn s)) with
        (exec w x (pthen (callNext j) (fun r => match r with Panic => ppanic | Err EOF => pret (s, None) | Err e => pret (s, Some e)
          | Ok row => do! q := fn s j row in match snd q with None => selectLoop (Datatypes.S m) j fn (fst q) | Some EOF => pret (fst q, None) | Some e => pret (fst q, Some e) end end))).
      unfold callNext. cbn [pthen exec]. rewrite E1. unfold yields in *. rewrite En, HC in *. cbn [project pthen pret exec] in *. rewrite exec_pbind.
      destruct (HB n it w1 s En P1) as (q & w2 & lg2 & E2 & P2 & B2). rewrite E2. rewrite (skipn_nth _ _ _ En). cbn [map].
      destruct q as [[s' [e|]]|e|]; cbn [snd fst].
      + assert (exec w2 x (match e with EOF => pret (s', None) | _ => pret (s', Some e) end) = (Ok (s', not_eof e), w2, [])) as -> by (destruct e; reflexivity).
        do 3 eexists. split; [reflexivity|]. split; [now exists (Datatypes.S n)|]. eapply vi_error; eassumption.
      + destruct (IH (Datatypes.S n) w2 s') as (q & w3 & lg3 & E3 & P3 & V3); [lia|exact P2|]. rewrite E3.
        do 3 eexists. split; [reflexivity|]. split; [exact P3|]. eapply vi_next; eassumption.
      + do 3 eexists. split; [reflexivity|]. split; [now exists (Datatypes.S n)|]. eapply vi_abort; eassumption.
      + do 3 eexists. split; [reflexivity|]. split; [now exists (Datatypes.S n)|]. eapply vi_panic; eassumption.
  Qed.

  Lemma open_rowsets w x t ti out w' : wok w -> view w x = Some t -> step w (Call x (openCall ti)) = (out, w') -> rowsets_of w' x = rowsets_of w x.
  Proof.
    intros K Hv E. destruct (live_step w x t (openCall ti) _ w' K Hv ltac:(discriminate) ltac:(discriminate) E)
      as (v & v' & Ev & Kv & V1 & V2 & V3 & V4 & V5 & W1 & W2 & W3 & W4 & W5 & W6).
    apply vstep_obj in Ev. inversion Ev; subst; congruence.
  Qed.

  Lemma busy_select {F : Float32Lib} {S} h w x t ti kc st mnS mxS mn mx fn (s : S) (body : world -> S -> row -> res (S * option error) -> world -> Prop) :
    can_open h w x t ti kc -> bound_for ti st mnS mn -> bound_for ti st mxS mx ->
    (forall rs n it w' s, nth_error (rs_items rs) n = Some it -> placed x (length (rowsets_of w x)) rs (Datatypes.S n) w' ->
      exists q w2 lg, exec w' x (fn s (length (rowsets_of w x)) (it_row it)) = (q, w2, lg) /\ placed x (length (rowsets_of w x)) rs (Datatypes.S n) w2 /\ body w' s (it_row it) q w2) ->
    exists q w1 w2 w' lg, exec w x (typedTableSelect ti mnS mxS fn s) = (q, w', lg) /\ view w1 x = Some t /\
      visiting x (length (rowsets_of w x)) body w1 s (filter (in_range kc mn mx) (rows_in t (ti_tid ti))) q w2 /\
      step w2 (Call x (CClose (length (rowsets_of w x)))) = (ODone, w') /\ active w' x.
  Proof.
    intros CO Bmn Bmx HB. destruct (bound_facts _ _ _ _ Bmn) as [Wmn Lmn]. destruct (bound_facts _ _ _ _ Bmx) as [Wmx Lmx]. destruct Bmn as [_ Emn]. destruct Bmx as [_ Emx].
    unfold typedTableSelect. rewrite exec_pthen, exec_pbind.
    destruct (exec_open HX HG _ _ _ _ _ _ CO) as (i & tb & w1 & lg1 & E1 & G1 & O1 & C1 & [A1 A2 A3 A4 A5 A6] & Ew1).
    assert (ER : rowsets_of w1 x = rowsets_of w x).
    { rewrite Ew1. destruct (step w (Call x (openCall ti))) as [out w1'] eqn:Eo. eapply open_rowsets; [exact (ran_wok _ _ (proj1 (co_orderly _ _ _ _ _ _ CO)))|exact (co_view _ _ _ _ _ _ CO)|exact Eo]. }
    rewrite E1, Emn, Emx. unfold pbind at 1 2. cbn [pthen]. unfold call at 1. cbn [exec].
    assert (forall b, (forall r, b = Some r -> length r = length (ti_types ti)) -> bound_fits kc b) as Hfit.
    { intros b Hb r -> c d Hc. specialize (Hb r eq_refl).
      pose proof (table_known' HX HG _ _ _ _ tb kc A3 A4 (nth_error_In _ _ A5) A6) as [_ _ _ _ _ D].
      pose proof (proj1 (Forall_forall _ _) (d_cols _ _ _ _ _ _ _ _ _ D) _ Hc) as Hlt. cbn [fst] in Hlt. rewrite A2, <- Hb in Hlt.
      split; [exact Hlt|]. exact (proj1 (Forall_forall _ _) (proj1 A6) _ Hc). }
    pose proof (Hfit mn Lmn) as Fmn. pose proof (Hfit mx Lmx) as Fmx.
    pose proof (scan_succeeds HX HG (h ++ lg1) w1 x t i tb kc None mn mx None A3 A4 A5 A6 Wmn Wmx Fmn Fmx ltac:(discriminate)) as Es.
    destruct (step w1 (Call x (CRows i None mn mx None))) as [out w2] eqn:E2. cbn [fst] in Es. subst out.
    destruct (scan_exact HX HG _ _ _ _ _ _ _ _ _ _ _ _ A3 A4 A5 A6 Wmn Wmx E2) as (V2 & rs & R1 & R2 & R3 & R4 & R5).
    pose proof (ran_wok _ _ (proj1 A3)) as K1.
    rewrite (made_rows _ _ _ _ _ _ _ _ _ R1). cbn [fst snd exec pret]. rewrite exec_pthen.
    assert (map it_row (rs_items rs) = filter (in_range kc mn mx) (rows_in t (ti_tid ti))) as Ei.
    { rewrite R5, A1. apply filter_ext. intros r. unfold wanted. now rewrite andb_true_r. }
    rewrite ER in *. set (j := length (rowsets_of w x)) in *.
    assert (P2 : placed x j rs 0 w2).
    { pose proof (step_cases _ _ _ _ K1 E2) as St. pose proof (wok_step _ _ _ _ K1 St) as K2. split; [exact K2|]. destruct (view_active w2 x t K2 V2) as (tx & Ft & Hs & _).
      exists tx, rs. split; [exact Ft|]. split; [exact (sees_live _ _ Hs)|]. unfold rowsets_of in R1 at 1. rewrite Ft in R1. split; [rewrite R1; apply nth_error_last|].
      repeat (split; [reflexivity|]). rewrite Nat.min_0_l. assumption. }
    destruct (loop_visits x j rs fn body) with (m := length (rs_items rs)) (n := 0%nat) (w := w2) (s := s) as (q & w3 & lg3 & E3 & (n3 & P3) & V3); try assumption; try reflexivity.
    { intros n it w' s' Hi HP. exact (HB rs n it w' s' Hi HP). }
    rewrite E3, exec_pthen. unfold call. cbn [exec]. destruct (placed_view _ _ _ _ _ P3) as (t3 & rs3 & Hv3 & Hr3 & _ & Hn3).
    destruct (close_live w3 x t3 _ _ _ (proj1 P3) Hv3 Hr3 Hn3) as (w4 & E4 & V4 & _). rewrite E4. cbn [exec pret].
    exists q, w2, w3, w4. eexists. split; [reflexivity|]. split; [exact V2|]. cbn [skipn] in V3. rewrite Ei in V3. split; [exact V3|]. split; [exact E4|].
    pose proof (wok_step _ _ _ _ (proj1 P3) (step_cases _ _ _ _ (proj1 P3) E4)) as K4. destruct (view_active w4 x t3 K4 V4) as (tx & Ft & Hs & _). exists tx. split; [exact Ft|exact (sees_live _ _ Hs)].
  Qed.

  (** A reference to the row at hand. *)
  Lemma placed_current x j rs n w it : placed x j rs (Datatypes.S n) w -> nth_error (rs_items rs) n = Some it ->
    exists w', step w (Call x (CCurrent j)) = (ODone, w') /\ placed x j rs (Datatypes.S n) w' /\ fst (made w' x (CCurrent j)) = length (refs_of w x).
  Proof.
    intros P Hi. destruct (placed_view _ _ _ _ _ P) as (t & rs' & Hv & Hr & Ht & Hn). assert (n < length (rs_items rs))%nat by (apply nth_error_Some; congruence).
    rewrite Nat.min_l in Hn by lia. rewrite <- Ht in Hi. destruct (current_live w x t j rs' n it (proj1 P) Hv Hr Hn Hi) as (w' & E & _ & _ & _ & _ & R).
    exists w'. split; [exact E|]. split; [eapply placed_step; [exact P|exact E|discriminate..]|]. rewrite made_ref, R, app_length. cbn [length]. lia.
  Qed.

  Lemma busy_apply {F : Float32Lib} {S} h w x t ti kc st mnS mxS mn mx (fn : S -> row -> prog (S * option error)) s :
    can_open h w x t ti kc -> bound_for ti st mnS mn -> bound_for ti st mxS mx -> (forall s r, spares (length (rowsets_of w x)) (fn s r)) ->
    exists q w1 w2 w' lg, exec w x (TypedTableSelect ti mnS mxS fn s) = (q, w', lg) /\ view w1 x = Some t /\
      visiting x (length (rowsets_of w x)) (applied x fn) w1 s (filter (in_range kc mn mx) (rows_in t (ti_tid ti))) q w2 /\
      step w2 (Call x (CClose (length (rowsets_of w x)))) = (ODone, w') /\ active w' x.
  Proof.
    intros CO B1 B2 HS. unfold TypedTableSelect. apply (busy_select h w x t ti kc st mnS mxS mn mx (fun s _ row => fn s row) s); try assumption.
    intros rs n it w' s' Hi P. destruct (exec w' x (fn s' (it_row it))) as [[q w2] lg] eqn:E. exists q, w2, lg. split; [reflexivity|].
    split; [eapply exec_spares; [apply HS|exact P|exact E]|now exists lg].
  Qed.

  Lemma busy_delete {F : Float32Lib} {S} h w x t ti kc st mnS mxS mn mx (fn : S -> row -> prog (S * (bool + error))) s :
    can_open h w x t ti kc -> bound_for ti st mnS mn -> bound_for ti st mxS mx -> (forall s r, spares (length (rowsets_of w x)) (fn s r)) ->
    exists q w1 w2 w' lg, exec w x (TypedTableDelete ti mnS mxS fn s) = (q, w', lg) /\ view w1 x = Some t /\
      visiting x (length (rowsets_of w x)) (deleting x (length (rowsets_of w x)) fn) w1 s (filter (in_range kc mn mx) (rows_in t (ti_tid ti))) q w2 /\
      step w2 (Call x (CClose (length (rowsets_of w x)))) = (ODone, w') /\ active w' x.
  Proof.
    intros CO B1 B2 HS. unfold TypedTableDelete. eapply busy_select; try eassumption.
    intros rs n it w' s' Hi P. rewrite exec_pbind. destruct (exec w' x (fn s' (it_row it))) as [[q w2] lg] eqn:E.
    assert (P2 : placed x (length (rowsets_of w x)) rs (Datatypes.S n) w2) by (eapply exec_spares; [apply HS|exact P|exact E]).
    destruct q as [[s2 [[|]|e]]|e|]; cbn [snd fst].
    - rewrite exec_pthen, exec_pbind. unfold call at 1. cbn [exec]. destruct (placed_current _ _ _ _ _ _ P2 Hi) as (w3 & E3 & P3 & M3). rewrite E3. cbn [exec pret fst]. rewrite M3.
      unfold call. cbn [exec]. destruct (step w3 (Call x (CDelete (length (refs_of w2 x))))) as [out w4] eqn:E4.
      assert (P4 : placed x (length (rowsets_of w x)) rs (Datatypes.S n) w4) by (eapply placed_step; [exact P3|exact E4|discriminate..]).
      pose proof (db_delete x _ fn w' s' (it_row it) s2 w2 lg w3 out w4 E E3 E4) as D.
      destruct out; cbn [exec pret pfail ppanic]; (do 3 eexists; split; [reflexivity|]; split; [exact P4|exact D]).
    - cbn [exec pret]. do 3 eexists. split; [reflexivity|]. split; [exact P2|]. eapply db_keep; exact E.
    - cbn [exec pret]. do 3 eexists. split; [reflexivity|]. split; [exact P2|]. eapply db_error; exact E.
    - do 3 eexists. split; [reflexivity|]. split; [exact P2|]. eapply db_abort; exact E.
    - do 3 eexists. split; [reflexivity|]. split; [exact P2|]. eapply db_panic; exact E.
  Qed.

  Lemma busy_update {F : Float32Lib} {S} h w x t ti kc st mnS mxS mn mx (fn : S -> row -> prog (S * (option upstruct + error))) s :
    can_open h w x t ti kc -> bound_for ti st mnS mn -> bound_for ti st mxS mx -> (forall s r, spares (length (rowsets_of w x)) (fn s r)) ->
    exists q w1 w2 w' lg, exec w x (TypedTableUpdate ti mnS mxS fn s) = (q, w', lg) /\ view w1 x = Some t /\
      visiting x (length (rowsets_of w x)) (updating x (length (rowsets_of w x)) ti fn) w1 s (filter (in_range kc mn mx) (rows_in t (ti_tid ti))) q w2 /\
      step w2 (Call x (CClose (length (rowsets_of w x)))) = (ODone, w') /\ active w' x.
  Proof.
    intros CO B1 B2 HS. unfold TypedTableUpdate. eapply busy_select; try eassumption.
    intros rs n it w' s' Hi P. rewrite exec_pbind. destruct (exec w' x (fn s' (it_row it))) as [[q w2] lg] eqn:E.
    assert (P2 : placed x (length (rowsets_of w x)) rs (Datatypes.S n) w2) by (eapply exec_spares; [apply HS|exact P|exact E]).
    destruct q as [[s2 [[u|]|e]]|e|]; cbn [snd fst].
    - rewrite exec_pthen, exec_pbind. unfold call at 1. cbn [exec]. destruct (placed_current _ _ _ _ _ _ P2 Hi) as (w3 & E3 & P3 & M3). rewrite E3. cbn [exec pret fst]. rewrite M3, exec_pbind. cbn [exec].
      destruct (structToColsVals ti u) as [[cols vals]|e|] eqn:EU.
      + unfold call. cbn [exec fst snd]. destruct (step w3 (Call x (CUpdate (length (refs_of w2 x)) cols vals))) as [out w4] eqn:E4.
        assert (P4 : placed x (length (rowsets_of w x)) rs (Datatypes.S n) w4) by (eapply placed_step; [exact P3|exact E4|discriminate..]).
        pose proof (ub_update x _ ti fn w' s' (it_row it) s2 u w2 lg w3 cols vals out w4 E E3 EU E4) as D.
        destruct out; cbn [exec pret pfail ppanic]; (do 3 eexists; split; [reflexivity|]; split; [exact P4|exact D]).
      + now apply structToColsVals_no_err in EU.
      + cbn [exec ppanic]. do 3 eexists. split; [reflexivity|]. split; [exact P3|]. eapply ub_unknown; eassumption.
    - cbn [exec pret]. do 3 eexists. split; [reflexivity|]. split; [exact P2|]. eapply ub_keep; exact E.
    - cbn [exec pret]. do 3 eexists. split; [reflexivity|]. split; [exact P2|]. eapply ub_error; exact E.
    - do 3 eexists. split; [reflexivity|]. split; [exact P2|]. eapply ub_abort; exact E.
    - do 3 eexists. split; [reflexivity|]. split; [exact P2|]. eapply ub_panic; exact E.
  Qed.
End Busy.
