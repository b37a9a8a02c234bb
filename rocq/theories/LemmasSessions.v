(** What follows for sessions: autocommit, the protocol of transactions, and
    names. *)

From Verif Require Import ModelSession SpecSession LemmasBase LemmasKey LemmasValue LemmasIdent LemmasTree LemmasStore LemmasWorld
  LemmasHistory LemmasSerial LemmasTable LemmasContents LemmasTableFacts LemmasTableCalls LemmasTableTypes LemmasRows LemmasTyped
  LemmasExec LemmasSelect LemmasTypedTable LemmasCatalogue LemmasSystemTables LemmasEngineOps LemmasEngineCalls LemmasEngineInit
  LemmasEngine LemmasMachine LemmasSession.

Section Sessions.
  Context {X : FloatLib} {L : CaseLib} {G : GobLib} {F : Float32Lib} {E : EGobLib}.
  Context (HX : FloatLib_ok X) (HG : GobLib_ok G) (HL : CaseLib_ok L) (HF : Float32Lib_ok F) (HE : EGobLib_ok E).

  Notation sstate := (@sstate X L G F E).

  (** ** All steps *)
  Definition smcall (t : idtable) (m : smachine) (c : scall) : smachine :=
    match c with
    | SNew d s => {| sm_cat := sm_cat m; sm_cur := sm_cur m; sm_ses := sm_ses m ++ [(d, s)] |}
    | SEval i (Some st) =>
        match nth_error (sm_ses m) i with
        | Some (db, sch) => snd (smstep t m i db sch (Resolve (sessionResolver {| ss_tx := None; ss_database := db; ss_schema := sch |}) st))
        | None => m
        end
    | _ => m
    end.

  Lemma sessions_nth w m i : srepresents w m -> nth_error (sm_ses m) i =
    match nth_error (s_sessions w) i with Some s => Some (ss_database s, ss_schema s) | None => None end.
  Proof. intros [H _]. rewrite <- H, nth_error_map. reflexivity. Qed.

  Lemma sstate_idt I w m : sstate I w m -> idt_ok (e_idt (s_e w)).
  Proof. intros ([n Hr] & _). destruct (reach_state HX HG HL HF HE I n _ Hr) as (h & _ & K). exact K. Qed.

  Lemma srep_tx w m : srepresents w m -> exists em, represents (s_e w) em /\ tx_of em w m.
  Proof. intros [_ (em & H1 & H2 & H3)]. exists em. split; [exact H1|]. split; assumption. Qed.

  Lemma call_sim I w m c out w' : sstate I w m -> known_scall (e_idt (s_e w)) c -> sstep I w c = (out, w') ->
    sstate I w' (smcall (e_idt (s_e w')) m c) /\ interns (e_idt (s_e w)) (e_idt (s_e w')).
  Proof.
    intros Hst Hk Es. pose proof (sstate_idt I w m Hst) as K. pose proof Hst as (Hr & Hd & Hrep). destruct (srep_tx w m Hrep) as (em & Rm & Htx).
    destruct c as [d s|i [st|]|s q]; cbn [smcall].
    - cbn [sstep] in Es. injection Es as _ <-. split; [|constructor]. eapply sstate_intro; [exact (conj Hr Rm)| | |].
      + cbn [s_e]. apply Forall_app. split; [exact Hd|]. constructor; [exact Hk|constructor].
      + rewrite map_app, (sr_sessions _ _ Hrep). reflexivity.
      + destruct Htx as [H1 H2]. split; [exact H1|]. cbn [sm_cur s_sessions]. destruct (sm_cur m) as [[o c]|].
        * destruct H2 as (k & E1 & E2 & E3). exists k. split; [exact E1|]. split.
          -- intros i Hi. destruct (E2 i Hi) as (s0 & j & Q1 & Q2 & Q3). exists s0, j. split; [|split; assumption].
             rewrite nth_error_app1; [exact Q1|]. apply nth_error_Some. congruence.
          -- intros i s0 Hi Ho. destruct (Nat.lt_ge_cases i (length (s_sessions w))) as [Hlt|Hge].
             ++ rewrite nth_error_app1 in Hi by exact Hlt. eapply E3; eassumption.
             ++ rewrite nth_error_app2 in Hi by exact Hge. destruct (i - length (s_sessions w))%nat as [|n]; cbn in Hi; [now injection Hi as <-|now destruct n].
        * destruct H2 as [E1 E2]. split; [exact E1|]. apply Forall_app. split; [exact E2|]. constructor; [reflexivity|constructor].
    - rewrite (sessions_nth w m i Hrep). destruct (nth_error (s_sessions w) i) as [ses|] eqn:Hi.
      + destruct (step_sim HX HG HL HF HE I w m i ses st out w' Hst Hi Hk Es) as (_ & H1 & H2). split; [|exact H2].
        replace (sessionResolver {| ss_tx := None; ss_database := ss_database ses; ss_schema := ss_schema ses |}) with (sessionResolver ses); [exact H1|].
        destruct ses. reflexivity.
      + cbn [sstep] in Es. rewrite Hi in Es. injection Es as _ <-. split; [exact Hst|constructor].
    - cbn [sstep] in Es. destruct (nth_error (s_sessions w) i) as [ses|] eqn:Hi; [|injection Es as _ <-; split; [exact Hst|constructor]].
      cbn [sessionEvaluate] in Es. injection Es as _ <-. rewrite set_nth_id by exact Hi. destruct w. split; [exact Hst|constructor].
    - cbn [sstep] in Es. destruct (estep I (s_e w) (EIntern s q)) as [o1 e1] eqn:E1. injection Es as <- <-.
      destruct (sim_call HX HG HL HF HE I _ em (EIntern s q) o1 e1 (conj Hr Rm) Logic.I E1) as (T1 & _ & T3). cbn [named mstep fst snd] in T1.
      split; [|exact T3]. eapply sstate_intro; [exact T1|eapply defaults_later; eassumption|exact (sr_sessions _ _ Hrep)|].
      destruct Htx as [H1 H2]. split; [exact H1|exact H2].
  Qed.

  Lemma sreach_ok I w : sreach I w -> exists m, sstate I w m.
  Proof.
    induction 1 as [s Hb|w c out w' Hr [m Hs] Hk Es].
    - assert (ereach I 0 s) as Hr by (now constructor). destruct (catalogue_reached HX HG HL HF HE I 0 s Hr) as (em & Rm & Hm).
      destruct (m_cur em) as [[o c]|] eqn:Hc.
      + exists {| sm_cat := m_cat em; sm_cur := Some (None, c); sm_ses := [] |}. eapply sstate_intro; [split; [exists O; exact Hr|exact Rm]|constructor|reflexivity|].
        split; [reflexivity|]. cbn [sm_cur]. exists o. split; [exact Hc|]. split; [discriminate|]. intros [|i] s0; discriminate.
      + exists {| sm_cat := m_cat em; sm_cur := None; sm_ses := [] |}. eapply sstate_intro; [split; [exists O; exact Hr|exact Rm]|constructor|reflexivity|].
        split; [reflexivity|]. split; [exact Hc|constructor].
    - eexists. eapply call_sim; eassumption.
  Qed.

  Lemma sreach_state I w m : sreach I w -> srepresents w m -> sstate I w m.
  Proof. intros Hr Hrep. destruct (sreach_ok I w Hr) as (m' & H1 & H2 & _). exact (conj H1 (conj H2 Hrep)). Qed.

  Lemma afterwards_state I ok w w' m : sstate I w m -> afterwards I ok w w' -> exists m', sstate I w' m'.
  Proof. intros Hs. induction 1 as [|w1 c out w2 H [m' IH] _ Hk Es]; [eauto|]. eexists. eapply call_sim; eassumption. Qed.

  (** ** Locks and what is stored *)
  Lemma recat I w m c : sstate I w m -> stored w c -> sstate I w {| sm_cat := c; sm_cur := sm_cur m; sm_ses := sm_ses m |}.
  Proof.
    intros (H1 & H2 & [H3 (em & Rm & Hc & H4)]) Hs. split; [exact H1|]. split; [exact H2|]. split; [exact H3|].
    exists {| m_cat := c; m_cur := m_cur em; m_count := m_count em |}. split; [|split; [reflexivity|exact H4]]. destruct Rm as [R1 R2 R3]. split; assumption.
  Qed.

  Lemma sstate_stored I w m : sstate I w m -> stored w (sm_cat m).
  Proof. intros (_ & _ & [_ (em & Rm & Hc & _)]). unfold stored. rewrite <- Hc. exact (rp_committed _ _ Rm). Qed.

  Lemma sstate_wok I w m : sstate I w m -> wok (e_w (s_e w)).
  Proof. intros ([n Hr] & _). destruct (reach_state HX HG HL HF HE I n _ Hr) as (h & Rn & _). exact (ran_wok _ _ Rn). Qed.

  Lemma unlocked_iff I w m : sstate I w m -> (unlocked w <-> sm_cur m = None).
  Proof.
    intros Hs. pose proof (sstate_wok I w m Hs) as K. destruct Hs as (_ & _ & [_ (em & [R1 R2 R3] & Hc & H4)]).
    destruct (sm_cur m) as [[o c]|].
    - destruct H4 as (k & Hm & _). rewrite Hm in R3. destruct R3 as (x & t & Hv & _). split; [|discriminate].
      intros Hu. exfalso. apply (Hu x). apply active_view; [exact K|eauto].
    - destruct H4 as [Hm _]. rewrite Hm in R3. split; [reflexivity|]. intros _. exact (proj1 R3).
  Qed.

  Lemma stuck_iff I w m : sstate I w m -> (stuck w <-> exists c, sm_cur m = Some (None, c)).
  Proof.
    intros Hs. pose proof (unlocked_iff I w m Hs) as Hu. pose proof (sstate_wok I w m Hs) as K. destruct Hs as (_ & _ & [_ (em & [R1 R2 R3] & Hc & H4)]).
    destruct (sm_cur m) as [[o c]|].
    - destruct H4 as (k & Hm & H5 & H6). rewrite Hm in R3. destruct R3 as (x & t & Hv & _).
      destruct o as [i|].
      + split; [|intros [? ?]; congruence]. intros [_ Hf]. destruct (H5 i eq_refl) as (s & j & Q1 & _ & Q3). rewrite Forall_forall in Hf.
        rewrite (Hf s) in Q3; [discriminate|]. eapply nth_error_In. exact Q1.
      + split; [eauto|]. intros _. split; [exists x; apply active_view; [exact K|eauto]|]. rewrite Forall_forall. intros s Hin.
        apply In_nth_error in Hin as [i Hi]. apply (H6 i s Hi). discriminate.
    - split; [|intros [? ?]; discriminate]. intros [[x Hx] _]. exfalso. exact (proj2 Hu eq_refl x Hx).
  Qed.

  (** ** One statement *)
  Lemma statement_lemma I w m i ses st out w' : sreach I w -> srepresents w m -> nth_error (s_sessions w) i = Some ses ->
    known_stmt (e_idt (s_e w)) st -> sstep I w (SEval i (Some st)) = (out, w') ->
    let r := smstep (e_idt (s_e w')) m i (ss_database ses) (ss_schema ses) (Resolve (sessionResolver ses) st) in
    same_out out (fst r) /\ srepresents w' (snd r).
  Proof.
    intros Hr Hrep Hi Hk Es. destruct (step_sim HX HG HL HF HE I w m i ses st out w' (sreach_state I w m Hr Hrep) Hi Hk Es) as (H1 & H2 & _).
    split; [exact H1|]. exact (proj2 (proj2 H2)).
  Qed.

  Lemma statement_resolve r st : statement (Resolve r st) = statement st.
  Proof. destruct st; reflexivity. Qed.
  Lemma supported_resolve r st : supported (Resolve r st) = supported st.
  Proof. destruct st; reflexivity. Qed.
  Lemma waits_resolve r st : waits (Resolve r st) = waits st.
  Proof. destruct st; reflexivity. Qed.

  Lemma alone_effect_out t st c : match fst (alone_effect t st c) with NDone | NErr _ | NPanic => True | _ => False end.
  Proof.
    destruct st; cbn [alone_effect]; try apply effect_out.
    - destruct options; [|exact Logic.I]. unfold create_database. repeat match goal with |- context [if ?b then _ else _] => destruct b end; exact Logic.I.
    - unfold drop_database. repeat match goal with |- context [if ?b then _ else _] => destruct b end; exact Logic.I.
  Qed.

  (** A statement outside a transaction, on the machine. *)
  Lemma smstep_alone t m i db sch st : sm_cur m = None -> statement st = true ->
    smstep t m i db sch st = own_transaction m (alone_effect t st) \/
    (exists e, smstep t m i db sch st = (NErr e, m) /\ alone_effect t st (sm_cat m) = (NErr e, sm_cat m)).
  Proof.
    intros Hc Hs. assert (owns m i = false) as Ho by (unfold owns; now rewrite Hc).
    destruct st; try discriminate; cbn [smstep alone_effect]; rewrite ?Hc, ?Ho; try (left; reflexivity).
    destruct options; [left; reflexivity|right]. exists ErrOption. split; reflexivity.
  Qed.

  Lemma autocommit_lemma I w i ses st c out w' : sreach I w -> nth_error (s_sessions w) i = Some ses -> unlocked w -> stored w c ->
    statement st = true -> known_stmt (e_idt (s_e w)) st -> sstep I w (SEval i (Some st)) = (out, w') ->
    match alone_effect (e_idt (s_e w')) (Resolve (sessionResolver ses) st) c with
    | (NDone, c') => out = EDone /\ stored w' c' /\ unlocked w'
    | (NErr e, _) => out = EErr e /\ stored w' c /\ unlocked w'
    | (NPanic, _) => out = EPanic /\ stored w' c /\ stuck w'
    | _ => False
    end.
  Proof.
    intros Hr Hi Hu Hc Hst Hk Es. destruct (sreach_ok I w Hr) as (m0 & Hs0). pose proof (recat I w m0 c Hs0 Hc) as Hs.
    apply (unlocked_iff I w m0 Hs0) in Hu. set (m := {| sm_cat := c; sm_cur := sm_cur m0; sm_ses := sm_ses m0 |}) in *.
    assert (sm_cur m = None) as Hcur by exact Hu.
    destruct (step_sim HX HG HL HF HE I w m i ses st out w' Hs Hi Hk Es) as (H1 & H2 & _).
    rewrite <- (statement_resolve (sessionResolver ses)) in Hst. set (rst := Resolve (sessionResolver ses) st) in *.
    pose proof (alone_effect_out (e_idt (s_e w')) rst c) as Hout.
    assert (forall m', sstate I w' m' -> sm_cur m' = None -> stored w' (sm_cat m') /\ unlocked w') as Hfree.
    { intros m' Hm Hn. split; [exact (sstate_stored I w' m' Hm)|]. exact (proj2 (unlocked_iff I w' m' Hm) Hn). }
    destruct (smstep_alone (e_idt (s_e w')) m i (ss_database ses) (ss_schema ses) rst Hcur Hst) as [E0|(e & E0 & E1)].
    - rewrite E0 in H1, H2. unfold own_transaction in H1, H2. rewrite Hcur in H1, H2. change (sm_cat m) with c in H1, H2.
      destruct (alone_effect (e_idt (s_e w')) rst c) as [o c']. destruct o; try contradiction; cbn [fst snd same_out] in H1, H2; (split; [exact H1|]).
      + exact (Hfree _ H2 eq_refl).
      + exact (Hfree _ H2 Hcur).
      + split; [exact (sstate_stored I w' _ H2)|]. apply (stuck_iff I w' _ H2). exists c'. reflexivity.
    - rewrite E0 in H1, H2. change (sm_cat m) with c in E1. rewrite E1. split; [exact H1|]. exact (Hfree _ H2 Hcur).
  Qed.

  Lemma unsupported_lemma t ses st c : statement st = true -> supported st = false ->
    alone_effect t (Resolve (sessionResolver ses) st) c = (NPanic, c).
  Proof. destruct st; try discriminate; reflexivity. Qed.

  (** Statements that wait. *)
  Lemma smstep_waits t m i db sch st : sm_cur m <> None -> owns m i = false -> waits st = true -> smstep t m i db sch st = (NBlocked, m).
  Proof.
    intros Hc Ho Hw. destruct (sm_cur m) as [[o c]|] eqn:Hcur; [clear Hc|now destruct Hc].
    assert (forall f, own_transaction m f = (NBlocked, m)) as Hot by (intros f; unfold own_transaction; now rewrite Hcur).
    destruct st; try discriminate; cbn [smstep]; rewrite ?Ho, ?Hcur, ?Hot; try reflexivity;
      try (destruct o as [j|]; [|reflexivity]; unfold owns in Ho; rewrite Hcur in Ho; rewrite Ho; reflexivity).
    destruct options; [reflexivity|discriminate].
  Qed.

  (** ** Stuck *)
  Lemma smcall_stuck t m c c0 : sm_cur m = Some (None, c0) -> sm_cur (smcall t m c) = Some (None, c0) /\ sm_cat (smcall t m c) = sm_cat m.
  Proof.
    intros Hc. assert (forall i, owns m i = false) as Ho by (intros i; unfold owns; now rewrite Hc).
    destruct c as [d s|i [st|]|s q]; cbn [smcall]; auto. destruct (nth_error _ _) as [[db sch]|]; [|auto].
    set (rst := Resolve _ st). destruct (waits rst) eqn:Hw.
    - rewrite smstep_waits; [auto|congruence|apply Ho|exact Hw].
    - destruct rst; try discriminate; cbn [smstep]; rewrite ?Ho, ?Hc; auto.
      + destruct (_ =? _); [auto|]. destruct (_ =? _); auto.
      + destruct options; [discriminate|auto].
  Qed.

  Lemma stuck_lemma I w c w' : sreach I w -> stuck w -> stored w c -> afterwards I (fun _ => True) w w' ->
    stuck w' /\ stored w' c /\
    forall i ses st, nth_error (s_sessions w') i = Some ses -> waits st = true -> known_stmt (e_idt (s_e w')) st ->
      fst (sstep I w' (SEval i (Some st))) = EBlocked.
  Proof.
    intros Hr Hk Hc Ha. destruct (sreach_ok I w Hr) as (m0 & Hs0). pose proof (recat I w m0 c Hs0 Hc) as Hs.
    destruct (proj1 (stuck_iff I w m0 Hs0) Hk) as (c0 & Hcur). set (m := {| sm_cat := c; sm_cur := sm_cur m0; sm_ses := sm_ses m0 |}) in *.
    assert (exists m', sstate I w' m' /\ sm_cur m' = Some (None, c0) /\ sm_cat m' = c) as (m' & Hs' & Hcur' & Hcat').
    { induction Ha as [|w1 cl out w2 H IH _ Hkc Es]; [exists m; split; [exact Hs|split; [exact Hcur|reflexivity]]|].
      destruct IH as (m' & H1 & H2 & H3). destruct (call_sim I w1 m' cl out w2 H1 Hkc Es) as [H4 _].
      destruct (smcall_stuck (e_idt (s_e w2)) m' cl c0 H2) as [H5 H6]. eexists. split; [exact H4|]. split; [exact H5|congruence]. }
    split; [apply (stuck_iff I w' m' Hs'); eauto|]. split; [rewrite <- Hcat'; exact (sstate_stored I w' m' Hs')|].
    intros i ses st Hi Hw Hkn. destruct (sstep I w' (SEval i (Some st))) as [out w''] eqn:Es.
    destruct (step_sim HX HG HL HF HE I w' m' i ses st out w'' Hs' Hi Hkn Es) as (H1 & _ & _).
    rewrite smstep_waits in H1; [exact H1|congruence|unfold owns; now rewrite Hcur'|now rewrite waits_resolve].
  Qed.

  (** ** The protocol *)
  Lemma sran_sreach I h w : sran I h w -> sreach I w.
  Proof. induction 1; [now constructor|eapply sr_step; eassumption]. Qed.

  Lemma owns_step t m j db sch st i :
    owns (snd (smstep t m j db sch st)) i =
    match st, fst (smstep t m j db sch st) with
    | SBegin, NDone => if (j =? i)%nat then true else owns m i
    | SCommit, NDone | SRollback, NDone => if (j =? i)%nat then false else owns m i
    | _, _ => owns m i
    end.
  Proof.
    assert (forall f, owns (snd (own_transaction m f)) i = owns m i) as Hot.
    { intros f. unfold own_transaction. destruct (sm_cur m) as [[o c]|] eqn:Hc; [reflexivity|]. assert (owns m i = false) as Ho by (unfold owns; now rewrite Hc).
      destruct (f (sm_cat m)) as [[] c]; cbn [snd]; unfold owns, sm_with; cbn [sm_cur]; rewrite ?Hc; reflexivity. }
    assert (forall j0 c c', sm_cur m = Some (Some j0, c) -> (j0 =? j)%nat = true -> owns (sm_with m (sm_cat m) (Some (Some j, c'))) i = owns m i) as Hin.
    { intros j0 c c' Hc Hj. apply Nat.eqb_eq in Hj. subst j0. unfold owns, sm_with. cbn [sm_cur]. now rewrite Hc. }
    assert (forall c, sm_cur m = Some (Some j, c) -> (if (j =? i)%nat then false else owns m i) = false) as Hmine.
    { intros c Hc. unfold owns. rewrite Hc. now destruct (j =? i)%nat. }
    assert (owns m j = true -> exists c, sm_cur m = Some (Some j, c)) as Hown.
    { unfold owns. destruct (sm_cur m) as [[[k|] c]|]; try discriminate. intros H. apply Nat.eqb_eq in H. subst. eauto. }
    assert (owns (sm_with m (sm_cat m) None) i = false) as Hno by reflexivity.
    destruct st; cbn [smstep];
      try (destruct (sm_cur m) as [[[j0|] c]|] eqn:Hc; [destruct (j0 =? j)%nat eqn:Hj; cbn [fst snd]; [exact (Hin j0 c _ eq_refl Hj)|reflexivity]|apply Hot|apply Hot]).
    - destruct (owns m j) eqn:Ho; [reflexivity|]. destruct (sm_cur m) as [[o c]|] eqn:Hc; [reflexivity|]. cbn [fst snd].
      unfold owns, sm_with. cbn [sm_cur]. rewrite Hc. now destruct (j =? i)%nat.
    - destruct (sm_cur m) as [[o c]|] eqn:Hc; [|reflexivity]. destruct (owns m j) eqn:Ho; [|reflexivity]. cbn [fst snd].
      destruct (Hown eq_refl) as (c' & Hc'). injection Hc' as -> <-. rewrite (Hmine c eq_refl). reflexivity.
    - destruct (owns m j) eqn:Ho; [|reflexivity]. cbn [fst snd]. destruct (Hown eq_refl) as (c' & Hc'). now rewrite (Hmine c' Hc').
    - destruct (_ =? _); [reflexivity|]. destruct (_ =? _); reflexivity.
    - destruct (owns m j); [reflexivity|]. destruct options; [apply Hot|reflexivity].
    - destruct (owns m j); [reflexivity|]. apply Hot.
  Qed.

  Lemma inside_lemma I h w : sran I h w -> exists m, sstate I w m /\ forall i, owns m i = inside h i.
  Proof.
    induction 1 as [s Hb|h w c out w' Hr (m & Hs & Ho) Hk Es].
    - destruct (sreach_ok I _ (sr_booted I s Hb)) as (m & Hs). exists m. split; [exact Hs|]. intros i. cbn [inside]. unfold owns.
      destruct (sm_cur m) as [[[j|] c]|] eqn:Hc; try reflexivity. destruct Hs as (_ & _ & [_ (em & _ & _ & H4)]). rewrite Hc in H4.
      destruct H4 as (k & _ & H5 & _). destruct (H5 j eq_refl) as (s0 & j' & Q & _). now destruct j.
    - destruct (call_sim I w m c out w' Hs Hk Es) as [Hs' _]. eexists. split; [exact Hs'|]. intros i. 
      destruct c as [d s|j [st|]|s q]; try exact (Ho i).
      cbn [smcall]. rewrite (sessions_nth w m j (proj2 (proj2 Hs))). destruct (nth_error (s_sessions w) j) as [ses|] eqn:Hj.
      + destruct (step_sim HX HG HL HF HE I w m j ses st out w' Hs Hj Hk Es) as (H1 & _).
        replace (sessionResolver {| ss_tx := None; ss_database := ss_database ses; ss_schema := ss_schema ses |}) with (sessionResolver ses) by (destruct ses; reflexivity).
        rewrite owns_step, Ho. revert H1. cbv zeta.
        destruct st; cbn [Resolve inside]; try reflexivity;
          match goal with |- same_out _ ?o -> _ => generalize o end; intros o H1; destruct o; cbn [same_out] in H1; try contradiction; subst out; reflexivity.
      + cbn [sstep] in Es. rewrite Hj in Es. injection Es as <- <-. rewrite Ho. cbn [inside]. destruct st; reflexivity.
  Qed.

  (** What does not use the store does not change it. *)
  Lemma same_world I w i ses st out : nth_error (s_sessions w) i = Some ses ->
    sessionEvaluate I (s_e w) ses (Some st) = (out, s_e w, ses) -> sstep I w (SEval i (Some st)) = (out, w).
  Proof. intros Hi H. cbn [sstep]. rewrite Hi, H, set_nth_id by exact Hi. now destruct w. Qed.

  Lemma owns_tx I w m i ses : sstate I w m -> nth_error (s_sessions w) i = Some ses -> (owns m i = true <-> ss_tx ses <> None).
  Proof.
    intros (_ & _ & Hrep) Hi. destruct (srep_tx w m Hrep) as (em & _ & Htx). destruct (ss_tx ses) as [k|] eqn:Hk.
    - destruct (session_mine em w m i ses k Htx Hi Hk) as (c & Hc & _). unfold owns. rewrite Hc, Nat.eqb_refl. split; [discriminate|reflexivity].
    - destruct (session_other em w m i ses Htx Hi Hk) as [Ho _]. rewrite Ho. split; [discriminate|congruence].
  Qed.

  Lemma protocol_lemma I h w i ses : sran I h w -> nth_error (s_sessions w) i = Some ses ->
    let ev := fun st => sstep I w (SEval i (Some st)) in
    (inside h i = true ->
      ev SBegin = (EErr ErrInTx, w) /\ fst (ev SCommit) = EDone /\ fst (ev SRollback) = EDone /\
      (forall d o, ev (SCreateDatabase d o) = (EErr ErrInTx, w)) /\ (forall b d o, ev (SDropDatabase b d o) = (EErr ErrInTx, w))) /\
    (inside h i = false ->
      (unlocked w -> fst (ev SBegin) = EDone) /\ (~ unlocked w -> ev SBegin = (EBlocked, w)) /\
      ev SCommit = (EErr ErrNoTx, w) /\ ev SRollback = (EErr ErrNoTx, w)).
  Proof.
    intros Hr Hi ev. destruct (inside_lemma I h w Hr) as (m & Hs & Ho). specialize (Ho i). pose proof (owns_tx I w m i ses Hs Hi) as Htx.
    assert (forall st, known_stmt (e_idt (s_e w)) st -> exists r, same_out (fst (ev st)) (fst r) /\
      exists t, r = smstep t m i (ss_database ses) (ss_schema ses) (Resolve (sessionResolver ses) st)) as Hstep.
    { intros st Hk. subst ev. cbv beta. destruct (sstep I w (SEval i (Some st))) as [out w'] eqn:Es.
      destruct (step_sim HX HG HL HF HE I w m i ses st out w' Hs Hi Hk Es) as (H1 & _). cbv zeta in H1. eexists. split; [exact H1|]. eauto. }
    split; intros Hin; rewrite Hin in Ho.
    - destruct (ss_tx ses) as [k|] eqn:Hk; [|now destruct (proj1 Htx Ho)].
      assert (exists c, sm_cur m = Some (Some i, c)) as (c & Hc).
      { unfold owns in Ho. destruct (sm_cur m) as [[[j|] c]|]; try discriminate. apply Nat.eqb_eq in Ho. subst. eauto. }
      split; [apply same_world with ses; [exact Hi|]; cbn [sessionEvaluate Resolve]; now rewrite Hk|].
      split; [destruct (Hstep SCommit Logic.I) as (r & H1 & t & ->); cbn [Resolve smstep] in H1; rewrite Hc, Ho in H1; exact H1|].
      split; [destruct (Hstep SRollback Logic.I) as (r & H1 & t & ->); cbn [Resolve smstep] in H1; rewrite Ho in H1; exact H1|].
      split; intros; apply same_world with ses; try exact Hi; cbn [sessionEvaluate Resolve]; now rewrite Hk.
    - destruct (ss_tx ses) as [k|] eqn:Hk; [now rewrite (proj2 Htx) in Ho|].
      split; [|split; [|split; apply same_world with ses; try exact Hi; cbn [sessionEvaluate Resolve]; now rewrite Hk]].
      + intros Hu. apply (unlocked_iff I w m Hs) in Hu. destruct (Hstep SBegin Logic.I) as (r & H1 & t & ->). cbn [Resolve smstep] in H1. rewrite Ho, Hu in H1. exact H1.
      + intros Hu. destruct (Hstep SBegin Logic.I) as (r & H1 & t & ->). cbn [Resolve smstep] in H1. rewrite Ho in H1.
        destruct (sm_cur m) as [[o c]|] eqn:Hc; [|destruct Hu; now apply (unlocked_iff I w m Hs)]. cbn [fst same_out] in H1.
        apply same_world with ses; [exact Hi|]. unfold ev in H1. cbn [sstep] in H1. rewrite Hi in H1.
        cbn [sessionEvaluate Resolve] in H1 |- *. rewrite Hk in H1 |- *. cbn [estep] in H1 |- *. destruct (step (e_w (s_e w)) (Begin (e_next (s_e w)))) as [[] w1]; cbn in H1 |- *; try discriminate H1; reflexivity.
  Qed.

  (** ** What is done in a transaction *)
  Lemma inside_effect_out t st c : match fst (inside_effect t st c) with NDone | NErr _ | NPanic => True | _ => False end.
  Proof. destruct st; cbn [inside_effect]; try apply effect_out; exact Logic.I. Qed.

  Lemma smstep_mine t m i db sch st c : sm_cur m = Some (Some i, c) -> statement st = true ->
    smstep t m i db sch st = (fst (inside_effect t st c), sm_with m (sm_cat m) (Some (Some i, snd (inside_effect t st c)))).
  Proof.
    intros Hc Hs. assert (owns m i = true) as Ho by (unfold owns; now rewrite Hc, Nat.eqb_refl).
    assert (sm_with m (sm_cat m) (Some (Some i, c)) = m) as Hm by (destruct m; cbn in *; unfold sm_with; cbn; now rewrite Hc).
    destruct st; try discriminate; cbn [smstep inside_effect]; rewrite ?Hc, ?Ho, ?Nat.eqb_refl; try reflexivity; cbn [fst snd]; now rewrite Hm.
  Qed.

  Lemma smcall_others t m c i c0 : sm_cur m = Some (Some i, c0) ->
    (forall st, c = SEval i (Some st) -> statement st = false /\ st <> SCommit /\ st <> SRollback) ->
    sm_cur (smcall t m c) = Some (Some i, c0) /\ sm_cat (smcall t m c) = sm_cat m.
  Proof.
    intros Hc Hn. destruct c as [d s|j [st|]|s q]; cbn [smcall]; auto. destruct (nth_error _ _) as [[db sch]|]; [|auto].
    destruct (Nat.eq_dec j i) as [Hj|Hj].
    - subst j. destruct (Hn st eq_refl) as (H1 & H2 & H3). assert (owns m i = true) as Ho by (unfold owns; now rewrite Hc, Nat.eqb_refl).
      destruct st; try discriminate; try congruence; cbn [Resolve smstep]; [now rewrite Ho|]. destruct (_ =? _); [auto|]. destruct (_ =? _); auto.
    - assert (owns m j = false) as Ho by (unfold owns; rewrite Hc; apply Nat.eqb_neq; congruence).
      set (rst := Resolve _ st). destruct (waits rst) eqn:Hw.
      + rewrite smstep_waits; [auto|congruence|exact Ho|exact Hw].
      + destruct rst; try discriminate; cbn [smstep]; rewrite ?Ho, ?Hc; auto.
        * destruct (_ =? _); [auto|]. destruct (_ =? _); auto.
        * destruct options; [discriminate|auto].
  Qed.

  Lemma during_lemma I i w c w' c' m : sstate I w m -> sm_cur m = Some (Some i, c) -> during I i w c w' c' ->
    exists m', sstate I w' m' /\ sm_cur m' = Some (Some i, c') /\ sm_cat m' = sm_cat m.
  Proof.
    intros Hs Hc. induction 1 as [|w1 c1 st ses out w2 H (m1 & S1 & S2 & S3) Hst Hk Hi Es|w1 c1 sc out w2 H (m1 & S1 & S2 & S3) Hn Hk Es].
    - eauto.
    - destruct (step_sim HX HG HL HF HE I w1 m1 i ses st out w2 S1 Hi Hk Es) as (_ & H2 & _).
      rewrite (smstep_mine _ m1 i _ _ _ c1 S2) in H2 by (now rewrite statement_resolve). cbn [snd] in H2.
      eexists. split; [exact H2|]. split; [reflexivity|exact S3].
    - destruct (call_sim I w1 m1 sc out w2 S1 Hk Es) as [H2 _]. destruct (smcall_others (e_idt (s_e w2)) m1 sc i c1 S2 Hn) as [H3 H4].
      eexists. split; [exact H2|]. split; [exact H3|congruence].
  Qed.

  Lemma transaction_lemma I w i ses c w1 w2 c2 : sreach I w -> nth_error (s_sessions w) i = Some ses -> stored w c ->
    sstep I w (SEval i (Some SBegin)) = (EDone, w1) -> during I i w1 c w2 c2 ->
    stored w2 c /\
    (forall j ses' st, j <> i -> nth_error (s_sessions w2) j = Some ses' -> waits st = true -> known_stmt (e_idt (s_e w2)) st ->
      fst (sstep I w2 (SEval j (Some st))) = EBlocked) /\
    (forall ses' st out w3, nth_error (s_sessions w2) i = Some ses' -> statement st = true -> known_stmt (e_idt (s_e w2)) st ->
      sstep I w2 (SEval i (Some st)) = (out, w3) ->
      same_out out (fst (inside_effect (e_idt (s_e w3)) (Resolve (sessionResolver ses') st) c2))) /\
    (forall out w3, sstep I w2 (SEval i (Some SCommit)) = (out, w3) -> out = EDone /\ stored w3 c2 /\ unlocked w3) /\
    (forall out w3, sstep I w2 (SEval i (Some SRollback)) = (out, w3) -> out = EDone /\ stored w3 c /\ unlocked w3).
  Proof.
    intros Hr Hi Hc Eb Hd. destruct (sreach_ok I w Hr) as (m0 & Hs0). pose proof (recat I w m0 c Hs0 Hc) as Hs. set (m := {| sm_cat := c; sm_cur := sm_cur m0; sm_ses := sm_ses m0 |}) in *.
    destruct (step_sim HX HG HL HF HE I w m i ses SBegin EDone w1 Hs Hi Logic.I Eb) as (H1 & H2 & _). cbn [Resolve smstep] in H1, H2.
    destruct (owns m i); [discriminate H1|]. destruct (sm_cur m) as [[? ?]|] eqn:Hcur; [discriminate H1|]. clear H1. cbn [snd] in H2.
    destruct (during_lemma I i w1 c w2 c2 _ H2 eq_refl Hd) as (m2 & S1 & S2 & S3). cbn in S3.
    assert (owns m2 i = true) as Ho by (unfold owns; now rewrite S2, Nat.eqb_refl).
    assert (exists ses2, nth_error (s_sessions w2) i = Some ses2) as (ses2 & Hi2).
    { destruct S1 as (_ & _ & [_ (em & _ & _ & H4)]). rewrite S2 in H4. destruct H4 as (k & _ & H5 & _). destruct (H5 i eq_refl) as (s & j & Q & _). eauto. }
    split; [rewrite <- S3; exact (sstate_stored I w2 m2 S1)|]. split; [|split; [|split]].
    - intros j ses' st Hj Hi' Hw Hk. destruct (sstep I w2 (SEval j (Some st))) as [out w3] eqn:Es.
      destruct (step_sim HX HG HL HF HE I w2 m2 j ses' st out w3 S1 Hi' Hk Es) as (H3 & _). rewrite smstep_waits in H3; [exact H3|congruence| |now rewrite waits_resolve].
      unfold owns. rewrite S2. apply Nat.eqb_neq. congruence.
    - intros ses' st out w3 Hi' Hst Hk Es. destruct (step_sim HX HG HL HF HE I w2 m2 i ses' st out w3 S1 Hi' Hk Es) as (H3 & _).
      rewrite (smstep_mine _ m2 i _ _ _ c2 S2) in H3 by (now rewrite statement_resolve). exact H3.
    - intros out w3 Es. destruct (step_sim HX HG HL HF HE I w2 m2 i ses2 SCommit out w3 S1 Hi2 Logic.I Es) as (H3 & H4 & _). cbn [Resolve smstep] in H3, H4.
      rewrite S2, Ho in H3, H4. split; [exact H3|]. split; [exact (sstate_stored I w3 _ H4)|]. exact (proj2 (unlocked_iff I w3 _ H4) eq_refl).
    - intros out w3 Es. destruct (step_sim HX HG HL HF HE I w2 m2 i ses2 SRollback out w3 S1 Hi2 Logic.I Es) as (H3 & H4 & _). cbn [Resolve smstep] in H3, H4.
      rewrite Ho in H3, H4. split; [exact H3|]. split; [rewrite <- S3; exact (sstate_stored I w3 _ H4)|]. exact (proj2 (unlocked_iff I w3 _ H4) eq_refl).
  Qed.
End Sessions.

(** ** Names *)
Lemma table_full ses tn tn' : full_table (ss_database ses) (ss_schema ses) tn tn' <-> tn' = sessionTable ses tn.
Proof.
  unfold sessionTable, full_table, given. destruct tn as [d s t]. cbn [tn_database tn_schema tn_table].
  destruct (Z.eqb_spec d 0) as [Hd|Hd]; [destruct (Z.eqb_spec s 0) as [Hs|Hs]|]; split.
  - intros (H1 & _ & H3 & _ & H5). destruct tn'. cbn in *. rewrite H1, H3, H5 by tauto. reflexivity.
  - intros ->. cbn. intuition congruence.
  - intros (H1 & _ & H3 & H4 & _). destruct tn'. cbn in *. rewrite H1, H3, H4 by tauto. reflexivity.
  - intros ->. cbn. intuition congruence.
  - intros (H1 & H2 & _). destruct tn'. cbn in *. destruct (H2 Hd). congruence.
  - intros ->. cbn. repeat split; intros; tauto.
Qed.
Lemma schema_full ses sn sn' : full_schema (ss_database ses) sn sn' <-> sn' = sessionSchema ses sn.
Proof.
  unfold sessionSchema, full_schema, given. destruct sn as [d s]. cbn [sn_database sn_schema]. destruct (Z.eqb_spec d 0) as [Hd|Hd]; split.
  - intros (H1 & _ & H3). destruct sn'. cbn in *. rewrite H1, H3 by tauto. reflexivity.
  - intros ->. cbn. intuition congruence.
  - intros (H1 & H2 & _). destruct sn'. cbn in *. rewrite (H2 Hd). congruence.
  - intros ->. cbn. repeat split; intros; tauto.
Qed.

Lemma resolve_idempotent ses tn sn :
  sessionTable ses (sessionTable ses tn) = sessionTable ses tn /\ sessionSchema ses (sessionSchema ses sn) = sessionSchema ses sn.
Proof.
  unfold sessionTable, sessionSchema. destruct tn as [d s t], sn as [d' s'], ses as [x db sch]. cbn [tn_database tn_schema tn_table sn_database sn_schema ss_database ss_schema].
  split.
  - destruct (d =? 0) eqn:Hd; [|cbn; now rewrite Hd]. cbn. destruct (db =? 0); [|reflexivity]. destruct (s =? 0) eqn:Hs; [|now rewrite Hs]. now destruct (sch =? 0).
  - destruct (d' =? 0) eqn:Hd; [|cbn; now rewrite Hd]. cbn. now destruct (db =? 0).
Qed.

Lemma resolve_stays ses ses' tn sn : given (ss_database ses) ->
  sessionTable ses' (sessionTable ses tn) = sessionTable ses tn /\ sessionSchema ses' (sessionSchema ses sn) = sessionSchema ses sn.
Proof.
  unfold given, sessionTable, sessionSchema. intros H. destruct tn as [d s t], sn as [d' s']. cbn [tn_database tn_schema tn_table sn_database sn_schema].
  apply Z.eqb_neq in H. split.
  - destruct (d =? 0) eqn:Hd; cbn; [now rewrite H|now rewrite Hd].
  - destruct (d' =? 0) eqn:Hd; cbn; [now rewrite H|now rewrite Hd].
Qed.

Lemma resolve_about r st : Resolve r st = about_others st (map (ResolveTable r) (fst (about st))) (map (ResolveSchema r) (snd (about st))).
Proof. induction st; cbn [Resolve about about_others fst snd map hd_table hd_schema hd]; try reflexivity. now rewrite <- IHst. Qed.

Lemma statement_names ses st : exists tns sns,
  Forall2 (full_table (ss_database ses) (ss_schema ses)) (fst (about st)) tns /\
  Forall2 (full_schema (ss_database ses)) (snd (about st)) sns /\
  Resolve (sessionResolver ses) st = about_others st tns sns.
Proof.
  exists (map (sessionTable ses) (fst (about st))), (map (sessionSchema ses) (snd (about st))). split; [|split; [|apply (resolve_about (sessionResolver ses) st)]].
  - induction (fst (about st)) as [|tn l IH]; cbn [map]; constructor; [now apply table_full|exact IH].
  - induction (snd (about st)) as [|sn l IH]; cbn [map]; constructor; [now apply schema_full|exact IH].
Qed.

(** Tables that are not resolved. *)
Lemma unresolved_tables : ~ forall ses st, stmt_tables (Resolve (sessionResolver ses) st) = map (sessionTable ses) (stmt_tables st).
Proof.
  intros H. specialize (H {| ss_tx := None; ss_database := 1; ss_schema := 2 |}
    (SSelect None (Some (FromTableAlias {| tn_database := 0; tn_schema := 0; tn_table := 3 |} 0)) None [] None [])). vm_compute in H. discriminate.
Qed.
Lemma unresolved_select ses rs f c g h o :
  Resolve (sessionResolver ses) (SSelect rs f c g h o) = SSelect rs f c g h o.
Proof. reflexivity. Qed.
Lemma unresolved_reference ses tn cols types d b csts fks :
  exists tn', Resolve (sessionResolver ses) (SCreateTable tn cols types d b csts fks) = SCreateTable tn' cols types d b csts fks.
Proof. eexists. reflexivity. Qed.

(** Resolution is right for statements all of whose tables are those they are
    about. *)
Lemma resolved_tables ses st : stmt_tables st = fst (about st) ->
  stmt_tables (Resolve (sessionResolver ses) st) = map (sessionTable ses) (stmt_tables st).
Proof.
  assert (forall A (a b : A) l l', a :: l = b :: l' -> l = l') as Hc by (intros A a b l l' H; congruence).
  induction st; cbn [stmt_tables about fst Resolve map sessionResolver ResolveTable]; intros H; try (now rewrite H); try (apply Hc in H; rewrite H; reflexivity); auto.
Qed.

(** SET changes the defaults. *)
Section Defaults.
  Context {X : FloatLib} {L : CaseLib} {G : GobLib} {F : Float32Lib} {E : EGobLib}.

  Lemma set_default I w i ses val var : nth_error (s_sessions w) i = Some ses -> var = ID_DATABASE \/ var = ID_SCHEMA ->
    let id := snd (ID (e_idt (s_e w)) val false) in
    exists w', sstep I w (SEval i (Some (SSet var val))) = (EDone, w') /\
      nth_error (s_sessions w') i = Some {| ss_tx := ss_tx ses; ss_database := if var =? ID_DATABASE then id else ss_database ses;
                                            ss_schema := if var =? ID_DATABASE then ss_schema ses else id |} /\
      (forall j, j <> i -> nth_error (s_sessions w') j = nth_error (s_sessions w) j) /\
      committed (e_w (s_e w')) = committed (e_w (s_e w)) /\ forall x, view (e_w (s_e w')) x = view (e_w (s_e w)) x.
  Proof.
    intros Hi Hv id. cbn [sstep]. rewrite Hi. cbn [sessionEvaluate Resolve]. cbv zeta.
    destruct ses as [[n|] db sch]; cbn [ss_tx ss_database ss_schema]; destruct Hv as [-> | ->]; cbn [Z.eqb ID_DATABASE ID_SCHEMA]; eexists; (split; [reflexivity|]); cbn [s_sessions s_e e_w];
      (split; [rewrite nth_set_nth, Nat.eqb_refl, Hi; reflexivity|]);
      (split; [intros j Hj; rewrite nth_set_nth; apply Nat.eqb_neq in Hj; now rewrite Hj|]); (split; [reflexivity|]); intros x; reflexivity.
  Qed.
  Lemma set_other I w i ses val var : nth_error (s_sessions w) i = Some ses -> var <> ID_DATABASE -> var <> ID_SCHEMA ->
    sstep I w (SEval i (Some (SSet var val))) = (EErr ErrNoVariable, w).
  Proof.
    intros Hi H1 H2. apply Z.eqb_neq in H1, H2. cbn [sstep]. rewrite Hi. cbn [sessionEvaluate Resolve]. cbv zeta. rewrite H1, H2.
    destruct w as [e l]. cbn [s_e s_sessions] in *. destruct (ss_tx ses); rewrite set_nth_id by exact Hi; reflexivity.
  Qed.
End Defaults.

(** ** With all that is assumed *)
Lemma session_states_all : forall X G L F E, libraries X G L F E -> forall I w, sreach I w -> exists m, srepresents w m.
Proof. intros X G L F E (HX & HG & HL & HF & HE) I w Hr. destruct (sreach_ok HX HG HL HF HE I w Hr) as (m & _ & _ & H). eauto. Qed.
Definition statement_all := fun X G L F E (H : libraries X G L F E) =>
  let '(conj HX (conj HG (conj HL (conj HF HE)))) := H in statement_lemma HX HG HL HF HE.
Definition autocommit_all := fun X G L F E (H : libraries X G L F E) =>
  let '(conj HX (conj HG (conj HL (conj HF HE)))) := H in autocommit_lemma HX HG HL HF HE.
Definition stuck_all := fun X G L F E (H : libraries X G L F E) =>
  let '(conj HX (conj HG (conj HL (conj HF HE)))) := H in stuck_lemma HX HG HL HF HE.
Definition protocol_all := fun X G L F E (H : libraries X G L F E) =>
  let '(conj HX (conj HG (conj HL (conj HF HE)))) := H in protocol_lemma HX HG HL HF HE.
Definition transaction_all := fun X G L F E (H : libraries X G L F E) =>
  let '(conj HX (conj HG (conj HL (conj HF HE)))) := H in transaction_lemma HX HG HL HF HE.
Lemma unsupported_all : forall X G L F E, libraries X G L F E ->
  forall I w i ses st c out w', sreach I w -> nth_error (s_sessions w) i = Some ses -> unlocked w -> stored w c ->
  statement st = true -> supported st = false -> known_stmt (e_idt (s_e w)) st -> sstep I w (SEval i (Some st)) = (out, w') ->
  out = EPanic /\ stored w' c /\ stuck w'.
Proof.
  intros X G L F E H I w i ses st c out w' Hr Hi Hu Hc Hs Hn Hk Es.
  pose proof (autocommit_all X G L F E H I w i ses st c out w' Hr Hi Hu Hc Hs Hk Es) as Ha. now rewrite (unsupported_lemma _ ses st c Hs Hn) in Ha.
Qed.
