(** Sessions: statements do what the catalogue says. *)

From Verif Require Import ModelSession SpecSession LemmasBase LemmasKey LemmasValue LemmasIdent LemmasTree LemmasStore LemmasWorld
  LemmasHistory LemmasSerial LemmasTable LemmasContents LemmasTableFacts LemmasTableCalls LemmasTableTypes LemmasRows LemmasTyped
  LemmasExec LemmasSelect LemmasTypedTable LemmasCatalogue LemmasSystemTables LemmasEngineOps LemmasEngineCalls LemmasEngineInit
  LemmasEngine LemmasMachine.

(** ** Keys *)
Lemma columnNumber_position nam cols : forall num,
  columnNumberFrom num nam cols = match position nam cols with Some i => Some (num + Z.of_nat i) | None => None end.
Proof.
  induction cols as [|d l IH]; intros num; cbn [columnNumberFrom position]; [reflexivity|].
  destruct (nam =? d); [f_equal; lia|]. rewrite IH. destruct (position nam l); [|reflexivity]. f_equal. lia.
Qed.

Lemma indexKey_positions cols rev names : forall key, length cols = length rev ->
  indexKeyLoop key cols rev names =
  Some match key_positions (combine cols rev) names with inl ps => inl (key ++ keys_of ps) | inr c => inr c end.
Proof.
  revert rev. induction cols as [|c l IH]; intros [|r rev] key Hl; try discriminate; cbn [indexKeyLoop combine key_positions].
  - unfold keys_of. cbn [map]. now rewrite app_nil_r.
  - unfold columnNumber. rewrite columnNumber_position. destruct (position c names) as [i|]; [|reflexivity].
    rewrite IH by (cbn in Hl; congruence). destruct (key_positions (combine l rev) names) as [ps|]; [|reflexivity].
    do 2 f_equal. unfold keys_of. cbn [map fst snd]. now rewrite <- app_assoc.
Qed.

Lemma indexKey_key key names : key_ok key ->
  indexKeyToColumnKey key names = Some match key_positions (key_columns key) names with inl ps => inl (keys_of ps) | inr c => inr c end.
Proof. intros H. unfold indexKeyToColumnKey. now rewrite indexKey_positions. Qed.

Lemma primaryKey_of csts : Forall (fun c => key_ok (con_key c)) csts -> 
  match primaryKey csts with
  | None => primary_of csts = []
  | Some key => key_ok key /\ primary_of csts = key_columns key
  end.
Proof.
  induction 1 as [|c l H _ IH]; [reflexivity|]. cbn [primaryKey]. unfold primary_of. cbn [find].
  change (primary_constraint c) with (match con_type c with PrimaryConstraint => true | _ => false end). destruct (con_type c); try exact IH. auto.
Qed.

(** ** One statement in a transaction *)
Section Statement.
  Context {X : FloatLib} {L : CaseLib} {G : GobLib} {F : Float32Lib} {E : EGobLib}.
  Context (HX : FloatLib_ok X) (HG : GobLib_ok G) (HL : CaseLib_ok L) (HF : Float32Lib_ok F) (HE : EGobLib_ok E).

  Definition estate (I : einfos) (s : eworld) (m : machine) : Prop := (exists n, ereach I n s) /\ represents s m.

  Lemma estate_idt I s m : estate I s m -> idt_ok (e_idt s).
  Proof. intros [[n Hr] _]. destruct (reach_state HX HG HL HF HE I n s Hr) as (h & _ & K). exact K. Qed.

  Lemma sim_call I s m c out s' : estate I s m -> known_call (e_idt s) c -> estep I s c = (out, s') ->
    estate I s' (snd (mstep m (named (e_idt s) c))) /\ agrees (e_idt s') out (fst (mstep m (named (e_idt s) c))) /\
    interns (e_idt s) (e_idt s').
  Proof.
    intros [[n Hr] Rm] Hk Es. destruct (catalogue_lemma HX HG HL HF HE I n s m c out s' Hr Rm Hk Es) as [Ha Rm'].
    destruct (reach_state HX HG HL HF HE I n s Hr) as (h & Rn & _).
    split; [split; [eexists; eapply er_call; eassumption|exact Rm']|]. split; [exact Ha|].
    eapply estep_interns; [exact (ran_wok _ _ Rn)|exact Es].
  Qed.

  Lemma within_mine m k c f : m_cur m = Some (Some k, c) -> (k < m_count m)%nat ->
    within m k f = (fst (f c), {| m_cat := m_cat m; m_cur := Some (Some k, snd (f c)); m_count := m_count m |}).
  Proof. intros Hc Hk. unfold within. now rewrite (proj2 (Nat.ltb_lt _ _) Hk), Hc, Nat.eqb_refl. Qed.

  Lemma machine_same m o c : m_cur m = Some (o, c) -> {| m_cat := m_cat m; m_cur := Some (o, c); m_count := m_count m |} = m.
  Proof. destruct m. cbn. now intros ->. Qed.

  Lemma def_later t t' cols types key : idt_ok t -> interns t t' -> Forall (known_id t) cols ->
    def_of t cols types key = def_of t' cols types key.
  Proof.
    intros K Hi Hk. unfold def_of. f_equal. apply map_ext_in. intros i Hin. rewrite Forall_forall in Hk.
    now rewrite (proj1 (name_stays t t' i K Hi (Hk i Hin))).
  Qed.

  Lemma open_cases d s n c : snd (open_table d s n c) = c /\
    ((exists id td, fst (open_table d s n c) = NTable id td) \/ (exists e, fst (open_table d s n c) = NErr e) \/ fst (open_table d s n c) = NPanic).
  Proof.
    unfold open_table. destruct (negb _); [auto|]. destruct (find_table _ _) as [[id td]|]; cbn [fst snd]; eauto 6.
  Qed.

  Lemma columns_later t t' cs cols : idt_ok t -> interns t t' ->
    Forall2 (fun (c : bool * bytes) i => ID t (snd c) (negb (fst c)) = (t, i)) cs cols -> map (column_id t') cs = cols.
  Proof.
    intros K Hi. induction 1 as [|c i cs cols H _ IH]; [reflexivity|]. cbn [map]. rewrite IH. f_equal.
    unfold column_id. now rewrite (ID_later t t' _ _ i t K H Hi).
  Qed.

  Definition later_machine (m : machine) (k : nat) (c : catalogue) : machine := {| m_cat := m_cat m; m_cur := Some (Some k, c); m_count := m_count m |}.

  Lemma drop_sim I k l : forall s m c out s', estate I s m -> m_cur m = Some (Some k, c) -> (k < m_count m)%nat ->
    EvaluateDropTable I s k l = (out, s') -> estate I s' m /\ out = EDone /\ interns (e_idt s) (e_idt s').
  Proof.
    induction l as [|tn l IH]; intros s m c out s' Hs Hc Hk; cbn [EvaluateDropTable].
    - intros [= <- <-]. repeat split; try apply Hs. constructor.
    - destruct (estep I s (EDropTable k tn)) as [o s1] eqn:Es. destruct (sim_call I s m (EDropTable k tn) o s1 Hs Logic.I Es) as (Hs1 & Ha & Hi).
      cbn [named mstep fst snd] in Hs1, Ha. rewrite (proj2 (Nat.ltb_lt _ _) Hk) in Ha. cbn [agrees] in Ha. subst o. intros Ev.
      destruct (IH s1 m c out s' Hs1 Hc Hk Ev) as (K1 & K2 & K3). split; [exact K1|]. split; [exact K2|]. eapply interns_trans; eassumption.
  Qed.

  Lemma tail_sim I s m k c cl f out s' t' : estate I s m -> m_cur m = Some (Some k, c) -> (k < m_count m)%nat ->
    known_call (e_idt s) cl -> mstep m (named (e_idt s) cl) = within m k f -> estep I s cl = (out, s') ->
    (forall id td, fst (f c) <> NTable id td) -> (forall l, fst (f c) <> NNames l) ->  fst (f c) <> NNoObject ->
    interns (e_idt s') t' ->
    estate I s' (later_machine m k (snd (f c))) /\ same_out out (fst (f c)) /\ interns (e_idt s) (e_idt s').
  Proof.
    intros Hs Hc Hk Hkn Hm Es N1 N2 N3 Ht. destruct (sim_call I s m cl out s' Hs Hkn Es) as (Hs1 & Ha & Hi).
    rewrite Hm, (within_mine m k c f Hc Hk) in Hs1, Ha. cbn [fst snd] in Hs1, Ha. split; [exact Hs1|]. split; [|exact Hi].
    destruct (fst (f c)); cbn [agrees same_out] in *; try assumption; [now destruct N3|now destruct (N2 l)|now destruct (N1 id td)].
  Qed.

  Lemma open_later t t' tn c : idt_ok t -> interns t t' -> known_table t tn ->
    open_table (idString t' (tn_database tn)) (idString t' (tn_schema tn)) (idString t' (tn_table tn)) c =
    open_table (idString t (tn_database tn)) (idString t (tn_schema tn)) (idString t (tn_table tn)) c.
  Proof.
    intros K Hi (Q1 & Q2 & Q3).
    now rewrite (proj1 (name_stays _ t' _ K Hi Q1)), (proj1 (name_stays _ t' _ K Hi Q2)), (proj1 (name_stays _ t' _ K Hi Q3)).
  Qed.

  Lemma create_sim I s m k c tn cols types p out s' t' : estate I s m -> m_cur m = Some (Some k, c) -> (k < m_count m)%nat ->
    known_table (e_idt s) tn -> Forall (known_id (e_idt s)) cols ->
    estep I s (ECreateTable k tn cols types p) = (out, s') -> interns (e_idt s') t' ->
    let r := create_table (idString t' (tn_database tn)) (idString t' (tn_schema tn)) (idString t' (tn_table tn)) (def_of t' cols types p) c in
    estate I s' (later_machine m k (snd r)) /\ same_out out (fst r) /\ interns (e_idt s) (e_idt s').
  Proof.
    intros Hs Hc Hk (Q1 & Q2 & Q3) Q4 Es Ht r. subst r. pose proof (estate_idt I s m Hs) as K.
    pose proof (conj Q1 (conj Q2 (conj Q3 Q4)) : known_call (e_idt s) (ECreateTable k tn cols types p)) as Hkn.
    destruct (sim_call I s m _ out s' Hs Hkn Es) as (_ & _ & Hi).
    assert (interns (e_idt s) t') as Ht1 by (eapply interns_trans; eassumption).
    rewrite (proj1 (name_stays _ t' _ K Ht1 Q1)), (proj1 (name_stays _ t' _ K Ht1 Q2)), (proj1 (name_stays _ t' _ K Ht1 Q3)),
      <- (def_later _ t' cols types p K Ht1 Q4).
    match goal with |- estate _ _ (later_machine _ _ (snd (create_table ?a ?b ?d ?e c))) /\ _ =>
      apply (tail_sim I s m k c _ (create_table a b d e) out s' t' Hs Hc Hk Hkn eq_refl Es) end; [| | |exact Ht];
      unfold create_table; intros; repeat match goal with |- context [if ?b then _ else _] => destruct b end; cbn [fst]; discriminate.
  Qed.

  Lemma effect_sim I s m k c st out s' t' : estate I s m -> m_cur m = Some (Some k, c) -> (k < m_count m)%nat ->
    known_stmt (e_idt s) st -> Evaluate I s k st = (out, s') -> interns (e_idt s') t' ->
    estate I s' (later_machine m k (snd (effect t' st c))) /\ same_out out (fst (effect t' st c)) /\ interns (e_idt s) (e_idt s').
  Proof.
    intros Hs Hc Hk Hkn Ev Ht. pose proof (estate_idt I s m Hs) as K.
    assert (later_machine m k c = m) as Hsame by (now apply machine_same).
    assert (forall out0, (out0, s) = (out, s') -> out0 = EPanic ->
      estate I s' (later_machine m k (snd (NPanic, c))) /\ same_out out (fst (NPanic, c)) /\ interns (e_idt s) (e_idt s')) as Hpanic.
    { intros out0 [= <- <-] ->. cbn [fst snd]. rewrite Hsame. split; [exact Hs|]. split; [reflexivity|constructor]. }
    assert (forall tn out1 s1, known_table (e_idt s) tn -> estep I s (EOpenTable k tn) = (out1, s1) ->
      estate I s1 m /\ interns (e_idt s) (e_idt s1) /\ (interns (e_idt s1) t' ->
        match fst (open_table (idString t' (tn_database tn)) (idString t' (tn_schema tn)) (idString t' (tn_table tn)) c) with
        | NTable id td => exists i ty, out1 = ETable i ty /\ map (column_id t') (td_cols td) = ett_cols ty
        | NErr e => out1 = EErr e
        | NPanic => out1 = EPanic
        | _ => False
        end)) as Hopen.
    { intros tn out1 s1 Hkt Es1. destruct (sim_call I s m (EOpenTable k tn) out1 s1 Hs Hkt Es1) as (Hs1 & Ha & Hi1). cbn [named mstep] in Hs1, Ha.
      rewrite (within_mine m k c _ Hc Hk) in Hs1, Ha. cbn [fst snd] in Hs1, Ha.
      match type of Ha with context [open_table ?a ?b ?d c] => pose proof (open_cases a b d c) as [Hsn Hcase] end.
      rewrite Hsn in Hs1. fold (later_machine m k c) in Hs1. rewrite Hsame in Hs1. split; [exact Hs1|]. split; [exact Hi1|].
      intros Ht1. rewrite (open_later (e_idt s) t' tn c K) by (assumption || eapply interns_trans; eassumption).
      destruct Hcase as [(id & td & Ho)|[(e & Ho)|Ho]]; rewrite Ho in Ha |- *; cbn [agrees] in Ha; [|exact Ha..].
      destruct Ha as (cs & -> & Hf). eexists _, _. split; [reflexivity|]. cbn [ett_cols].
      eapply columns_later; [exact (estate_idt I s1 m Hs1)|exact Ht1|exact Hf]. }
    destruct st; cbn [Evaluate effect known_stmt] in Ev, Hkn |- *; try (now apply (Hpanic _ Ev)).
    - (* CREATE TABLE *)
      destruct Hkn as (Hkt & Hcols & Hkeys). unfold EvaluateCreateTable in Ev.
      destruct (estep I s (EOpenTable k tn)) as [o1 s1] eqn:Es1. destruct (Hopen tn o1 s1 Hkt Es1) as (Hs1 & Hi1 & Ho).
      assert (known_table (e_idt s1) tn) as Hkt1 by (destruct Hkt as (Q1 & Q2 & Q3); repeat split; eapply name_stays; eassumption).
      assert (Forall (known_id (e_idt s1)) cols) as Hcols1.
      { eapply Forall_impl; [|exact Hcols]. intros i Hi. now apply (name_stays (e_idt s) (e_idt s1)). }
      assert (forall p, estep I s1 (ECreateTable k tn cols types p) = (out, s') -> interns (e_idt s1) t' /\
        let r := create_table (idString t' (tn_database tn)) (idString t' (tn_schema tn)) (idString t' (tn_table tn)) (def_of t' cols types p) c in
        estate I s' (later_machine m k (snd r)) /\ same_out out (fst r) /\ interns (e_idt s) (e_idt s')) as Hct.
      { intros p Es. destruct (create_sim I s1 m k c tn cols types p out s' t' Hs1 Hc Hk Hkt1 Hcols1 Es Ht) as (T1 & T2 & T3).
        split; [eapply interns_trans; eassumption|]. split; [exact T1|]. split; [exact T2|]. eapply interns_trans; eassumption. }
      pose proof (primaryKey_of csts Hkeys) as Hp. cbn zeta.
      assert (interns (e_idt s1) t') as Ht1.
      { destruct o1; try (injection Ev as <- <-; exact Ht); [|destruct ifNotExists; injection Ev as <- <-; exact Ht].
        destruct (primaryKey csts) as [key|]; [|exact (proj1 (Hct _ Ev))]. destruct Hp as [Hp _]. rewrite (indexKey_key key cols Hp) in Ev.
        destruct (key_positions _ _) as [ps|col]; [exact (proj1 (Hct _ Ev))|]. destruct (col =? 0); [exact (proj1 (Hct _ Ev))|].
        injection Ev as <- <-; exact Ht. }
      specialize (Ho Ht1). destruct (fst (open_table _ _ _ c)) as [|e| | | | |id td]; try contradiction.
      + subst o1. destruct (primaryKey csts) as [key|]; [|rewrite Hp; exact (proj2 (Hct _ Ev))].
        destruct Hp as [Hp ->]. rewrite (indexKey_key key cols Hp) in Ev.
        destruct (key_positions _ _) as [ps|col]; [exact (proj2 (Hct _ Ev))|]. destruct (col =? 0) eqn:Hn; [apply Z.eqb_eq in Hn; subst col|apply Z.eqb_neq in Hn]; [exact (proj2 (Hct _ Ev))|].
        injection Ev as <- <-. destruct col; [now destruct Hn| |]; cbn [fst snd]; rewrite Hsame; (split; [exact Hs1|]; split; [reflexivity|exact Hi1]).
      + subst o1. injection Ev as <- <-. cbn [fst snd]. rewrite Hsame. split; [exact Hs1|]. split; [reflexivity|exact Hi1].
      + destruct Ho as (i & ty & -> & _). cbn [fst snd]. rewrite Hsame. destruct ifNotExists; injection Ev as <- <-; (split; [exact Hs1|]; split; [reflexivity|exact Hi1]).
    - (* CREATE INDEX *)
      destruct Hkn as (Hkt & Hkey). unfold EvaluateCreateIndex in Ev.
      destruct (estep I s (EOpenTable k tn)) as [o1 s1] eqn:Es1. destruct (Hopen tn o1 s1 Hkt Es1) as (Hs1 & Hi1 & Ho).
      assert (forall p o2 s2, estep I s1 (ECreateIndex k tn index p) = (o2, s2) -> estate I s2 m /\ o2 = EDone /\ interns (e_idt s1) (e_idt s2)) as Hct.
      { intros p o2 s2 Es. destruct (sim_call I s1 m (ECreateIndex k tn index p) o2 s2 Hs1 Logic.I Es) as (Hs2 & Ha & Hi2). cbn [named mstep fst snd] in Hs2, Ha.
        rewrite (proj2 (Nat.ltb_lt _ _) Hk) in Ha. auto. }
      assert (interns (e_idt s1) (e_idt s') /\ estate I s' m) as [Hi2 Hs'].
      { assert (interns (e_idt s1) (e_idt s1)) by constructor.
        destruct o1; try (injection Ev as <- <-; auto). rewrite (indexKey_key key _ Hkey) in Ev.
        destruct (key_positions _ _) as [ps|col]; [split; eapply (Hct _ _ _ Ev)|]. destruct (col =? 0); [split; eapply (Hct _ _ _ Ev)|].
        injection Ev as <- <-; auto. }
      assert (interns (e_idt s1) t') as Ht1 by (eapply interns_trans; eassumption).
      assert (interns (e_idt s) (e_idt s')) as Hi3 by (eapply interns_trans; eassumption).
      specialize (Ho Ht1). destruct (fst (open_table _ _ _ c)) as [|e| | | | |id td]; try contradiction.
      + subst o1. injection Ev as <- <-. cbn [fst snd]. rewrite Hsame. split; [exact Hs1|]. split; [reflexivity|exact Hi1].
      + subst o1. injection Ev as <- <-. cbn [fst snd]. rewrite Hsame. split; [exact Hs1|]. split; [reflexivity|exact Hi1].
      + destruct Ho as (i & ty & -> & Hcl). rewrite Hcl. rewrite (indexKey_key key _ Hkey) in Ev.
        destruct (key_positions _ _) as [ps|col].
        * cbn [fst snd]. rewrite Hsame. destruct (Hct _ _ _ Ev) as (T1 & -> & _). split; [assumption|]; split; [reflexivity|assumption].
        * destruct (col =? 0) eqn:Hn; [apply Z.eqb_eq in Hn; subst col|apply Z.eqb_neq in Hn]; [|destruct col; [now destruct Hn| |]]; cbn [fst snd]; rewrite Hsame.
          -- destruct (Hct _ _ _ Ev) as (T1 & -> & _). split; [assumption|]; split; [reflexivity|assumption].
          -- injection Ev as <- <-. split; [assumption|]; split; [reflexivity|assumption].
          -- injection Ev as <- <-. split; [assumption|]; split; [reflexivity|assumption].
    - (* CREATE SCHEMA *)
      destruct Hkn as (Q1 & Q2). assert (interns (e_idt s) t') as Ht1.
      { eapply interns_trans; [|exact Ht]. apply (sim_call I s m (ECreateSchema k (sn_database sn) (sn_schema sn)) out s' Hs (conj Q1 Q2) Ev). }
      rewrite (proj1 (name_stays _ t' _ K Ht1 Q1)), (proj1 (name_stays _ t' _ K Ht1 Q2)).
      match goal with |- estate _ _ (later_machine _ _ (snd (create_schema ?a ?b c))) /\ _ =>
        apply (tail_sim I s m k c (ECreateSchema k (sn_database sn) (sn_schema sn)) (create_schema a b) out s' t' Hs Hc Hk (conj Q1 Q2) eq_refl Ev) end; [| | |exact Ht];
        unfold create_schema; intros; repeat match goal with |- context [if ?b then _ else _] => destruct b end; cbn [fst]; discriminate.
    - (* DROP TABLE *)
      destruct (drop_sim I k tables s m c out s' Hs Hc Hk Ev) as (T1 & -> & T3). cbn [fst snd]. rewrite Hsame. split; [assumption|]; split; [reflexivity|assumption].
    - (* DROP INDEX *)
      destruct (sim_call I s m (EDropIndex k tn index) out s' Hs Logic.I Ev) as (Hs2 & Ha & Hi2). cbn [named mstep fst snd] in Hs2, Ha.
      rewrite (proj2 (Nat.ltb_lt _ _) Hk) in Ha. cbn [fst snd]. rewrite Hsame. auto.
    - (* DROP SCHEMA *)
      destruct Hkn as (Q1 & Q2). assert (interns (e_idt s) t') as Ht1.
      { eapply interns_trans; [|exact Ht]. apply (sim_call I s m (EDropSchema k (sn_database sn) (sn_schema sn) ifExists) out s' Hs (conj Q1 Q2) Ev). }
      rewrite (proj1 (name_stays _ t' _ K Ht1 Q1)), (proj1 (name_stays _ t' _ K Ht1 Q2)).
      match goal with |- estate _ _ (later_machine _ _ (snd (drop_schema ?a ?b ?i c))) /\ _ =>
        apply (tail_sim I s m k c (EDropSchema k (sn_database sn) (sn_schema sn) ifExists) (drop_schema a b i) out s' t' Hs Hc Hk (conj Q1 Q2) eq_refl Ev) end; [| | |exact Ht];
        unfold drop_schema; intros; repeat match goal with |- context [if ?b then _ else _] => destruct b end; cbn [fst]; discriminate.
  Qed.

  Lemma effect_out t st c : match fst (effect t st c) with NDone | NErr _ | NPanic => True | _ => False end.
  Proof.
    destruct st; cbn [effect fst]; try exact Logic.I.
    - pose proof (open_cases (idString t (tn_database tn)) (idString t (tn_schema tn)) (idString t (tn_table tn)) c) as [_ H].
      assert (forall d, match fst (create_table (idString t (tn_database tn)) (idString t (tn_schema tn)) (idString t (tn_table tn)) d c)
        with NDone | NErr _ | NPanic => True | _ => False end) as Hc.
      { intros d. unfold create_table. repeat match goal with |- context [if ?b then _ else _] => destruct b end; exact Logic.I. }
      destruct H as [(id & td & ->)|[(e & ->)| ->]]; cbn [fst]; [destruct ifNotExists; exact Logic.I| |exact Logic.I].
      destruct (key_positions _ _) as [ps|col]; [apply Hc|]. destruct col; [apply Hc|exact Logic.I..].
    - pose proof (open_cases (idString t (tn_database tn)) (idString t (tn_schema tn)) (idString t (tn_table tn)) c) as [_ H].
      destruct H as [(id & td & ->)|[(e & ->)| ->]]; cbn [fst]; [|exact Logic.I..].
      destruct (key_positions _ _) as [ps|[]]; exact Logic.I.
    - unfold create_schema. repeat match goal with |- context [if ?b then _ else _] => destruct b end; exact Logic.I.
    - unfold drop_schema. repeat match goal with |- context [if ?b then _ else _] => destruct b end; exact Logic.I.
  Qed.

  Lemma known_later t t' st : idt_ok t -> interns t t' -> known_stmt t st -> known_stmt t' st.
  Proof.
    intros K Hi. assert (forall i, known_id t i -> known_id t' i) as H1 by (intros i H; now apply (name_stays t t' i)).
    destruct st; cbn [known_stmt]; unfold known_table; try tauto.
    - intros ((A & B & C) & D & D'). repeat split; auto. eapply Forall_impl; [|exact D]. auto.
    - intros ((A & B & C) & D). auto.
    - auto.
    - intros [A B]. auto.
    - auto.
    - intros [A B]. auto.
  Qed.

  Lemma alone_sim I s m st out s' t' : estate I s m -> m_cur m = None -> known_stmt (e_idt s) st ->
    evaluateAlone I s st = (out, s') -> interns (e_idt s') t' ->
    let r := effect t' st (m_cat m) in
    same_out out (fst r) /\ interns (e_idt s) (e_idt s') /\
    exists em, estate I s' em /\
      match fst r with
      | NErr _ => m_cat em = m_cat m /\ m_cur em = None
      | NPanic => m_cat em = m_cat m /\ exists k, m_cur em = Some (Some k, snd r)
      | _ => m_cat em = snd r /\ m_cur em = None
      end.
  Proof.
    intros Hs Hc Hkn Ev Ht r. unfold evaluateAlone in Ev. pose proof (estate_idt I s m Hs) as K. pose proof (rp_count _ _ (proj2 Hs)) as Hn.
    destruct (estep I s EBegin) as [o1 s1] eqn:Es1. destruct (sim_call I s m EBegin o1 s1 Hs Logic.I Es1) as (Hs1 & Ha1 & Hi1).
    cbn [named mstep] in Hs1, Ha1. rewrite Hc in Hs1, Ha1. cbn [fst snd agrees] in Hs1, Ha1. subst o1. rewrite Hn in Ev.
    set (k := m_count m) in *. set (m1 := {| m_cat := _; m_cur := _; m_count := _ |}) in *.
    destruct (Evaluate I s1 k st) as [o2 s2] eqn:Es2.
    pose proof (fun t2 => effect_sim I s1 m1 k (m_cat m) st o2 s2 t2 Hs1 eq_refl (Nat.lt_succ_diag_r k) (known_later _ _ st K Hi1 Hkn) Es2) as Hef.
    assert (interns (e_idt s1) (e_idt s2)) as Hi2 by (eapply Hef; constructor).
    assert (interns (e_idt s2) (e_idt s')) as Hi3.
    { assert (forall m2 c o3 s3, estate I s2 m2 -> c = ECommit k \/ c = ERollback k -> estep I s2 c = (o3, s3) -> interns (e_idt s2) (e_idt s3)) as Hcr.
      { intros m2 c o3 s3 Hs2 H Es. eapply (sim_call I s2 m2 c o3 s3 Hs2); [|exact Es]. destruct H as [-> | ->]; exact Logic.I. }
      destruct (Hef (e_idt s2) ltac:(constructor)) as (Hs2 & _).
      destruct o2; try (injection Ev as <- <-; constructor).
      - eapply Hcr; [exact Hs2| |exact Ev]; auto.
      - destruct (estep I s2 (ERollback k)) as [o3 s3] eqn:E3. assert (s3 = s') as <- by (destruct o3; now injection Ev).
        eapply Hcr; [exact Hs2| |exact E3]; auto. }
    assert (interns (e_idt s2) t') as Ht2 by (eapply interns_trans; eassumption).
    destruct (Hef t' Ht2) as (Hs2 & Ho2 & _). fold r in Hs2, Ho2.
    assert (interns (e_idt s) (e_idt s')) as Hi by (eapply interns_trans; [exact Hi1|eapply interns_trans; eassumption]).
    pose proof (effect_out t' st (m_cat m)) as Hout. fold r in Hout.
    set (m2 := later_machine m1 k (snd r)) in *.
    destruct (fst r) as [|e| | | | |]; try contradiction; cbn [same_out] in Ho2; subst o2.
    - destruct (sim_call I s2 m2 (ECommit k) out s' Hs2 Logic.I Ev) as (Hs3 & Ha3 & _). cbn [named mstep] in Hs3, Ha3. unfold complete_with in Hs3, Ha3.
      cbn in Hs3, Ha3. rewrite (proj2 (Nat.leb_le _ _) (le_n k)), Nat.eqb_refl in Hs3, Ha3.
      split; [exact Ha3|]. split; [exact Hi|]. eexists. split; [exact Hs3|]. split; reflexivity.
    - destruct (estep I s2 (ERollback k)) as [o3 s3] eqn:E3. assert (s3 = s') as -> by (destruct o3; now injection Ev).
      destruct (sim_call I s2 m2 (ERollback k) o3 s' Hs2 Logic.I E3) as (Hs3 & Ha3 & _). cbn [named mstep] in Hs3, Ha3. unfold complete_with in Hs3, Ha3.
      cbn in Hs3, Ha3. rewrite (proj2 (Nat.leb_le _ _) (le_n k)), Nat.eqb_refl in Hs3, Ha3. cbn in Ha3. subst o3. injection Ev as <-.
      split; [reflexivity|]. split; [exact Hi|]. eexists. split; [exact Hs3|]. split; reflexivity.
    - injection Ev as <- <-. split; [reflexivity|]. split; [exact Hi|]. exists m2. split; [exact Hs2|]. split; [reflexivity|]. exists k. reflexivity.
  Qed.

  (** ** Sessions *)
  Definition defaults_known (t : idtable) (ses : session) : Prop := known_id t (ss_database ses) /\ known_id t (ss_schema ses).

  Definition sstate (I : einfos) (w : sworld) (m : smachine) : Prop :=
    (exists n, ereach I n (s_e w)) /\ Forall (defaults_known (e_idt (s_e w))) (s_sessions w) /\ srepresents w m.

  Lemma resolve_known t ses st : defaults_known t ses -> known_stmt t st -> known_stmt t (Resolve (sessionResolver ses) st).
  Proof.
    intros [D1 D2]. assert (forall tn, known_table t tn -> known_table t (sessionTable ses tn)) as Ht.
    { intros tn (A & B & C). unfold sessionTable. destruct (_ =? 0); [|repeat split; assumption].
      destruct (_ =? 0); repeat split; assumption. }
    assert (forall sn, known_id t (sn_database sn) /\ known_id t (sn_schema sn) ->
      known_id t (sn_database (sessionSchema ses sn)) /\ known_id t (sn_schema (sessionSchema ses sn))) as Hsn.
    { intros sn [A B]. unfold sessionSchema. destruct (_ =? 0); split; assumption. }
    destruct st; cbn [known_stmt Resolve sessionResolver ResolveTable ResolveSchema]; auto.
    - intros (A & B). auto.
    - intros (A & B). auto.
  Qed.

  Lemma set_nth_id {A} (l : list A) : forall i x, nth_error l i = Some x -> set_nth i x l = l.
  Proof. induction l as [|y l IH]; intros [|i] x H; try discriminate; cbn in *; [congruence|]. now rewrite IH. Qed.
  Lemma nth_set_nth {A} (l : list A) : forall i j x, nth_error (set_nth i x l) j =
    if (j =? i)%nat then match nth_error l i with Some _ => Some x | None => None end else nth_error l j.
  Proof.
    induction l as [|y l IH]; intros [|i] [|j] x; cbn [set_nth nth_error Nat.eqb]; try reflexivity.
    - destruct (j =? i)%nat; reflexivity.
    - apply IH.
  Qed.
  Lemma map_set_nth {A B} (f : A -> B) (l : list A) : forall i x, map f (set_nth i x l) = set_nth i (f x) (map f l).
  Proof. induction l as [|y l IH]; intros [|i] x; cbn; try reflexivity. now rewrite IH. Qed.

  Definition tx_of (em : machine) (w : sworld) (m : smachine) : Prop :=
    m_cat em = sm_cat m /\
    match sm_cur m with
    | None => m_cur em = None /\ Forall (fun s => ss_tx s = None) (s_sessions w)
    | Some (o, c) => exists k, m_cur em = Some (k, c) /\
        (forall i, o = Some i -> exists s j, nth_error (s_sessions w) i = Some s /\ k = Some j /\ ss_tx s = Some j) /\
        (forall i s, nth_error (s_sessions w) i = Some s -> o <> Some i -> ss_tx s = None)
    end.

  Lemma sstate_intro I e l m em : estate I e em -> Forall (defaults_known (e_idt e)) l ->
    map (fun s => (ss_database s, ss_schema s)) l = sm_ses m -> tx_of em {| s_e := e; s_sessions := l |} m ->
    sstate I {| s_e := e; s_sessions := l |} m.
  Proof.
    intros [Hr Rm] Hd Hs [Hc Ht]. split; [exact Hr|]. split; [exact Hd|]. split; [exact Hs|]. exists em. split; [exact Rm|]. split; [exact Hc|exact Ht].
  Qed.

  Lemma defaults_later t t' l : idt_ok t -> interns t t' -> Forall (defaults_known t) l -> Forall (defaults_known t') l.
  Proof.
    intros K Hi H. eapply Forall_impl; [|exact H]. intros ses [A B]. split; eapply name_stays; eassumption.
  Qed.

  Definition plain (st : stmt) : bool :=
    match st with
    | SBegin | SCommit | SRollback | SSet _ _ | SCreateDatabase _ _ | SDropDatabase _ _ _ => false
    | _ => true
    end.

  Lemma plain_evaluate I s ses st : plain (Resolve (sessionResolver ses) st) = true ->
    sessionEvaluate I s ses (Some st) =
    (match ss_tx ses with None => evaluateAlone I s (Resolve (sessionResolver ses) st) | Some k => Evaluate I s k (Resolve (sessionResolver ses) st) end, ses).
  Proof. cbn [sessionEvaluate]. cbv zeta. destruct (Resolve _ st), (ss_tx ses); try discriminate; reflexivity. Qed.

  Lemma plain_machine t m i db sch st : plain st = true ->
    smstep t m i db sch st =
        match sm_cur m with
        | Some (Some j, c) =>
            if (j =? i)%nat then (fst (effect t st c), sm_with m (sm_cat m) (Some (Some i, snd (effect t st c)))) else (NBlocked, m)
        | _ => own_transaction m (effect t st)
        end.
  Proof. destruct st; try discriminate; reflexivity. Qed.

  (** The transaction of a session is the open one. *)
  Lemma session_mine em w m i ses k : tx_of em w m -> nth_error (s_sessions w) i = Some ses -> ss_tx ses = Some k ->
    exists c, sm_cur m = Some (Some i, c) /\ m_cur em = Some (Some k, c).
  Proof.
    intros [_ H] Hi Hk. destruct (sm_cur m) as [[o c]|].
    - destruct H as (k' & Hm & H1 & H2). exists c. assert (o = Some i) as ->.
      { destruct o as [j|]; [destruct (Nat.eq_dec j i) as [->|Hn]; [reflexivity|]|]; rewrite (H2 i ses Hi) in Hk; congruence. }
      destruct (H1 i eq_refl) as (s & j & E1 & -> & E3). rewrite Hi in E1. injection E1 as <-. split; [reflexivity|]. congruence.
    - destruct H as [_ H]. rewrite Forall_forall in H. rewrite (H ses) in Hk; [discriminate|]. eapply nth_error_In. exact Hi.
  Qed.
  Lemma session_other em w m i ses : tx_of em w m -> nth_error (s_sessions w) i = Some ses -> ss_tx ses = None ->
    owns m i = false /\ (m_cur em = None <-> sm_cur m = None).
  Proof.
    intros [_ H] Hi Hk. unfold owns. destruct (sm_cur m) as [[o c]|].
    - destruct H as (k' & Hm & H1 & H2). split; [|split; congruence]. destruct o as [j|]; [|reflexivity]. apply Nat.eqb_neq. intros ->.
      destruct (H1 i eq_refl) as (s & j & E1 & _ & E3). congruence.
    - destruct H as [H _]. split; [reflexivity|]. tauto.
  Qed.
  Lemma count_mine I s em k c : estate I s em -> m_cur em = Some (Some k, c) -> (k < m_count em)%nat.
  Proof.
    intros [_ [R1 R2 R3]] Hc. rewrite Hc in R3. destruct R3 as (x & t & _ & _ & H). rewrite <- R2.
    apply nth_error_Some. rewrite (proj2 (H k x) (conj eq_refl eq_refl)). discriminate.
  Qed.

  Lemma step_sim I w m i ses st out w' : sstate I w m -> nth_error (s_sessions w) i = Some ses ->
    known_stmt (e_idt (s_e w)) st -> sstep I w (SEval i (Some st)) = (out, w') ->
    let r := smstep (e_idt (s_e w')) m i (ss_database ses) (ss_schema ses) (Resolve (sessionResolver ses) st) in
    same_out out (fst r) /\ sstate I w' (snd r) /\ interns (e_idt (s_e w)) (e_idt (s_e w')).
  Proof.
    intros (Hr & Hd & [Hss (em & Rm & Hcat & Hcur)]) Hi Hkn Es r. subst r.
    pose proof (conj Hr Rm : estate I (s_e w) em) as Hs. pose proof (conj Hcat Hcur : tx_of em w m) as Htx.
    pose proof (estate_idt I _ em Hs) as K.
    assert (defaults_known (e_idt (s_e w)) ses) as Hds by (rewrite Forall_forall in Hd; apply Hd; eapply nth_error_In; exact Hi).
    pose proof (resolve_known _ ses st Hds Hkn) as Hkn'. cbn [sstep] in Es. rewrite Hi in Es.
    destruct (sessionEvaluate I (s_e w) ses (Some st)) as [[out0 e'] ses'] eqn:Ev. injection Es as -> <-. cbn [s_e].
    set (rst := Resolve (sessionResolver ses) st) in *.
    assert (Forall (defaults_known (e_idt (s_e w))) (set_nth i ses (s_sessions w))) as Hd0 by (now rewrite set_nth_id).
    assert (map (fun s => (ss_database s, ss_schema s)) (set_nth i ses (s_sessions w)) = sm_ses m) as Hm0 by (now rewrite set_nth_id).
    assert (estate I (s_e w) em -> sstate I {| s_e := s_e w; s_sessions := set_nth i ses (s_sessions w) |} m) as Hsame.
    { intros _. eapply sstate_intro; [exact Hs|exact Hd0|exact Hm0|]. rewrite set_nth_id by exact Hi. destruct w. exact Htx. }
    specialize (Hsame Hs).
    destruct (plain rst) eqn:Hp.
    - (* in a transaction or alone *)
      rewrite (plain_evaluate I _ ses st Hp) in Ev. fold rst in Ev. rewrite (plain_machine _ m i _ _ rst Hp).
      destruct (ss_tx ses) as [k|] eqn:Hk.
      + destruct (session_mine em w m i ses k Htx Hi Hk) as (c & Hc1 & Hc2). injection Ev as Ev <-. rewrite Hc1, Nat.eqb_refl. cbn [fst snd].
        destruct (effect_sim I (s_e w) em k c rst out e' (e_idt e') Hs Hc2 (count_mine I _ em k c Hs Hc2) Hkn' Ev ltac:(constructor)) as (T1 & T2 & T3).
        split; [exact T2|]. split; [|exact T3]. eapply sstate_intro; [exact T1|eapply defaults_later; [exact K|exact T3|exact Hd0]|exact Hm0|].
        rewrite Hc1 in Hcur. destruct Hcur as (k' & E1 & E2 & E3). split; [exact Hcat|]. cbn. exists (Some k). split; [reflexivity|].
        rewrite set_nth_id by exact Hi. split; [|exact E3]. assert (k' = Some k) as -> by congruence. exact E2.
      + destruct (session_other em w m i ses Htx Hi Hk) as [Ho Hne]. injection Ev as Ev <-.
        destruct (sm_cur m) as [[o c]|] eqn:Hc.
        * assert (evaluateAlone I (s_e w) rst = (EBlocked, s_e w)) as Hb.
          { destruct (estep I (s_e w) EBegin) as [o1 s1] eqn:Es1. destruct (sim_call I _ em EBegin o1 s1 Hs Logic.I Es1) as (_ & Ha1 & _).
            cbn [named mstep] in Ha1. destruct Hcur as (k' & Hmc & _). rewrite Hmc in Ha1. cbn in Ha1. subst o1. unfold evaluateAlone. rewrite Es1.
            f_equal. cbn [estep] in Es1. destruct (step _ _) as [[]]; congruence. }
          rewrite Hb in Ev. injection Ev as <- <-.
          assert (own_transaction m (effect (e_idt (s_e w)) rst) = (NBlocked, m)) as Hot by (unfold own_transaction; now rewrite Hc).
          assert (same_out EBlocked NBlocked /\ sstate I {| s_e := s_e w; s_sessions := set_nth i ses (s_sessions w) |} m /\ interns (e_idt (s_e w)) (e_idt (s_e w))) as Hres
            by (split; [reflexivity|]; split; [exact Hsame|constructor]).
          destruct o as [j|]; [|rewrite Hot; exact Hres]. unfold owns in Ho. rewrite Hc in Ho. rewrite Ho. exact Hres.
        * unfold own_transaction. rewrite Hc. destruct Hcur as [Hc2 Hall].
          destruct (alone_sim I (s_e w) em rst out e' (e_idt e') Hs Hc2 Hkn' Ev ltac:(constructor)) as (T1 & T2 & em' & T3 & T4).
          rewrite Hcat in T1, T4. assert (Forall (defaults_known (e_idt e')) (set_nth i ses (s_sessions w))) as Hd1 by (eapply defaults_later; eassumption).
          pose proof (effect_out (e_idt e') rst (sm_cat m)) as Hout.
          destruct (effect (e_idt e') rst (sm_cat m)) as [o c]. cbn [fst snd] in T1, T4, Hout.
          destruct o; try contradiction; cbn [fst snd]; (split; [exact T1|]); (split; [|exact T2]); (eapply sstate_intro; [exact T3|exact Hd1|exact Hm0|]);
            rewrite set_nth_id by exact Hi; (split; [exact (proj1 T4)|]); cbn [sm_cur sm_with].
          -- split; [exact (proj2 T4)|exact Hall].
          -- rewrite Hc. split; [exact (proj2 T4)|exact Hall].
          -- destruct T4 as [_ [k T4]]. exists (Some k). split; [exact T4|]. split; [discriminate|].
             intros j s Hj _. rewrite Forall_forall in Hall. apply Hall. eapply nth_error_In. exact Hj.
    - (* statements of the session itself *)
      cbn [sessionEvaluate] in Ev. fold rst in Ev. cbv zeta in Ev.
      assert (forall o, same_out out (fst (o, m)) -> e' = s_e w -> ses' = ses ->
        same_out out (fst (o, m)) /\ sstate I {| s_e := e'; s_sessions := set_nth i ses' (s_sessions w) |} (snd (o, m)) /\
        interns (e_idt (s_e w)) (e_idt e')) as Hnone.
      { intros o H -> ->. split; [exact H|]. split; [exact Hsame|constructor]. }
      assert (forall l m1 em1 e1, estate I e1 em1 -> interns (e_idt (s_e w)) (e_idt e1) -> sm_ses m1 = sm_ses m ->
        map (fun s => (ss_database s, ss_schema s)) l = sm_ses m -> (forall s, In s l -> exists s0, In s0 (s_sessions w) /\ ss_database s = ss_database s0 /\ ss_schema s = ss_schema s0) ->
        tx_of em1 {| s_e := e1; s_sessions := l |} m1 -> sstate I {| s_e := e1; s_sessions := l |} m1) as Hintro.
      { intros l m1 em1 e1 H1 H2 H3 H4 H5 H6. eapply sstate_intro; [exact H1| |congruence|exact H6].
        pose proof (defaults_later _ _ _ K H2 Hd) as Hd1. rewrite Forall_forall in Hd1 |- *. intros s Hin. destruct (H5 s Hin) as (s0 & Hin0 & E1 & E2).
        destruct (Hd1 s0 Hin0). split; congruence. }
      assert (forall tx, map (fun s => (ss_database s, ss_schema s)) (set_nth i {| ss_tx := tx; ss_database := ss_database ses; ss_schema := ss_schema ses |} (s_sessions w)) = sm_ses m) as Hmtx.
      { intros tx. rewrite <- Hm0, !map_set_nth. reflexivity. }
      assert (forall tx s, In s (set_nth i {| ss_tx := tx; ss_database := ss_database ses; ss_schema := ss_schema ses |} (s_sessions w)) ->
        exists s0, In s0 (s_sessions w) /\ ss_database s = ss_database s0 /\ ss_schema s = ss_schema s0) as Hin.
      { intros tx s Hin. apply In_nth_error in Hin as [j Hj]. rewrite nth_set_nth, Hi in Hj. destruct (j =? i)%nat.
        - injection Hj as <-. exists ses. split; [eapply nth_error_In; exact Hi|]. split; reflexivity.
        - exists s. split; [eapply nth_error_In; exact Hj|]. split; reflexivity. }
      assert (forall e1 em1 m1, estate I e1 em1 -> interns (e_idt (s_e w)) (e_idt e1) -> sm_ses m1 = sm_ses m -> m_cat em1 = sm_cat m1 -> m_cur em1 = None -> sm_cur m1 = None ->
        (forall j s, nth_error (s_sessions w) j = Some s -> j <> i -> ss_tx s = None) ->
        sstate I {| s_e := e1; s_sessions := set_nth i {| ss_tx := None; ss_database := ss_database ses; ss_schema := ss_schema ses |} (s_sessions w) |} m1) as Hdone.
      { intros e1 em1 m1 H1 H2 H3 H4 H5 H6 H7. eapply Hintro; [exact H1|exact H2|exact H3|apply Hmtx|apply Hin|].
        split; [exact H4|]. rewrite H6. split; [exact H5|]. cbn [s_sessions]. rewrite Forall_forall. intros s Hs0. apply In_nth_error in Hs0 as [j Hj].
        rewrite nth_set_nth, Hi in Hj. destruct (j =? i)%nat eqn:Hn; [now injection Hj as <-|]. apply Nat.eqb_neq in Hn. eapply H7; eassumption. }
      assert (forall c f e1 o1 nf, ss_tx ses = None -> known_call (e_idt (s_e w)) c ->
        (forall t, interns (e_idt (s_e w)) t -> mstep em (named (e_idt (s_e w)) c) = alone em (f t) /\ nf t = own_transaction m (f t)) ->
        estep I (s_e w) c = (o1, e1) -> (forall cat t, match fst (f t cat) with NDone | NErr _ | NPanic => True | _ => False end) ->
        same_out o1 (fst (nf (e_idt e1))) /\ sstate I {| s_e := e1; s_sessions := set_nth i ses (s_sessions w) |} (snd (nf (e_idt e1))) /\
        interns (e_idt (s_e w)) (e_idt e1)) as Hown.
      { intros c f e1 o1 nf Hk Hkc Hf Es Hfo. destruct (sim_call I _ em c o1 e1 Hs Hkc Es) as (T1 & T2 & T3).
        destruct (Hf _ T3) as [F1 F2]. rewrite F1 in T1, T2. rewrite F2. unfold alone in T1, T2. unfold own_transaction.
        destruct (session_other em w m i ses Htx Hi Hk) as [Ho Hne].
        destruct (sm_cur m) as [[o cc]|] eqn:Hc.
        - destruct Hcur as (k' & Hmc & Hcur). rewrite Hmc in T1, T2. cbn [fst snd] in *. split; [exact T2|]. split; [|exact T3].
          eapply sstate_intro; [exact T1|eapply defaults_later; eassumption|exact Hm0|]. rewrite set_nth_id by exact Hi.
          split; [exact Hcat|]. rewrite Hc. exists k'. split; [exact Hmc|exact Hcur].
        - destruct Hcur as [Hmc Hall]. rewrite Hmc, Hcat in T1, T2. specialize (Hfo (sm_cat m) (e_idt e1)). 
          destruct (f (e_idt e1) (sm_cat m)) as [o cc]. cbn [fst] in Hfo.
          destruct o; try contradiction; cbn [fst snd] in T1, T2 |- *; (split; [exact T2|]); (split; [|exact T3]);
            (eapply sstate_intro; [exact T1|eapply defaults_later; eassumption|exact Hm0|]); rewrite set_nth_id by exact Hi; cbn [sm_with sm_cur].
          + split; [reflexivity|]. split; [reflexivity|exact Hall].
          + split; [exact Hcat|]. rewrite Hc. split; [exact Hmc|exact Hall].
          + split; [reflexivity|]. exists None. split; [reflexivity|]. split; [discriminate|].
            intros j s Hj _. rewrite Forall_forall in Hall. apply Hall. eapply nth_error_In. exact Hj. }
      assert (forall val f e1 o1, estep I (s_e w) (EIntern val false) = (o1, e1) ->
        (f = (fun id => (id, ss_schema ses)) \/ f = (fun id => (ss_database ses, id))) ->
        same_out o1 NDone /\ sstate I {| s_e := e1; s_sessions := set_nth i
          {| ss_tx := ss_tx ses; ss_database := fst (f (snd (ID (sh_idt (w_sh (e_w (s_e w)))) val false)));
             ss_schema := snd (f (snd (ID (sh_idt (w_sh (e_w (s_e w)))) val false))) |} (s_sessions w) |}
          (sm_default m i (f (snd (ID (e_idt e1) val false)))) /\ interns (e_idt (s_e w)) (e_idt e1)) as Hset.
      { intros val f e1 o1 Es Hf. destruct (sim_call I _ em (EIntern val false) o1 e1 Hs Logic.I Es) as (T1 & T2 & T3). cbn [named mstep fst snd] in T1, T2.
        split; [exact T2|]. split; [|exact T3]. cbn [estep] in Es. injection Es as _ He1. fold (e_idt (s_e w)).
        assert (e_idt e1 = fst (ID (e_idt (s_e w)) val false)) as Hid by (subst e1; reflexivity).
        destruct (ID (e_idt (s_e w)) val false) as [t1 id] eqn:E1. cbn [fst snd] in *.
        destruct (means_total val false) as [mn M]. destruct (ID_spec _ _ _ _ _ _ K M E1) as (K1 & _ & Hm & _).
        rewrite Hid, (ID_later _ t1 _ _ id t1 K E1 ltac:(constructor)). cbn [snd].
        pose proof (defaults_later _ _ _ K T3 Hd) as Hd1. rewrite Hid in Hd1. pose proof (entry_known _ _ _ K1 Hm) as Hkid.
        eapply sstate_intro; [exact T1| | |].
        - rewrite Hid, Forall_forall in *. intros s Hin0. apply In_nth_error in Hin0 as [j Hj]. rewrite nth_set_nth, Hi in Hj. destruct (j =? i)%nat.
          + injection Hj as <-. destruct (Hd1 ses (nth_error_In _ _ Hi)) as [D1 D2]. destruct Hf as [-> | ->]; split; assumption.
          + apply Hd1. eapply nth_error_In. exact Hj.
        - rewrite map_set_nth. cbn [sm_ses sm_default ss_database ss_schema]. rewrite <- Hss. f_equal. now destruct Hf as [-> | ->].
        - split; [exact Hcat|]. cbn [sm_cur sm_default s_sessions].
          assert (forall j s, nth_error (set_nth i {| ss_tx := ss_tx ses; ss_database := fst (f id); ss_schema := snd (f id) |} (s_sessions w)) j = Some s ->
            exists s0, nth_error (s_sessions w) j = Some s0 /\ ss_tx s = ss_tx s0) as Hj.
          { intros j s Hj. rewrite nth_set_nth, Hi in Hj. destruct (j =? i)%nat eqn:Hn; [|eauto]. apply Nat.eqb_eq in Hn. subst j.
            injection Hj as <-. exists ses. split; [exact Hi|reflexivity]. }
          destruct (sm_cur m) as [[o c]|].
          + destruct Hcur as (k' & E2 & E3 & E4). exists k'. split; [exact E2|]. split.
            * intros j Ho. destruct (E3 j Ho) as (s & j' & Q1 & Q2 & Q3). rewrite nth_set_nth, Hi.
              destruct (j =? i)%nat eqn:Hn; [|eauto]. apply Nat.eqb_eq in Hn. subst j. rewrite Hi in Q1. injection Q1 as <-. eauto.
            * intros j s Hs0 Ho. destruct (Hj j s Hs0) as (s0 & Q1 & ->). eapply E4; eassumption.
          + destruct Hcur as [E2 E3]. split; [exact E2|]. rewrite Forall_forall in *. intros s Hin0. apply In_nth_error in Hin0 as [j Hs0].
            destruct (Hj j s Hs0) as (s0 & Q1 & ->). apply E3. eapply nth_error_In. exact Q1. }
      assert (forall var val, (if var =? ID_DATABASE then
              (estep I (s_e w) (EIntern val false),
               {| ss_tx := ss_tx ses; ss_database := snd (ID (sh_idt (w_sh (e_w (s_e w)))) val false); ss_schema := ss_schema ses |})
            else if var =? ID_SCHEMA then
              (estep I (s_e w) (EIntern val false),
               {| ss_tx := ss_tx ses; ss_database := ss_database ses; ss_schema := snd (ID (sh_idt (w_sh (e_w (s_e w)))) val false) |})
            else (EErr ErrNoVariable, s_e w, ses)) = (out, e', ses') ->
          same_out out (fst (smstep (e_idt e') m i (ss_database ses) (ss_schema ses) (SSet var val))) /\
          sstate I {| s_e := e'; s_sessions := set_nth i ses' (s_sessions w) |} (snd (smstep (e_idt e') m i (ss_database ses) (ss_schema ses) (SSet var val))) /\
          interns (e_idt (s_e w)) (e_idt e')) as Hset2.
      { intros var val H. cbn [smstep]. destruct (var =? ID_DATABASE); [|destruct (var =? ID_SCHEMA)].
        - pose proof (f_equal snd H) as Hses; apply (f_equal fst) in H; cbn [fst snd] in H, Hses; subst ses'. exact (Hset val (fun id => (id, ss_schema ses)) e' out H (or_introl eq_refl)).
        - pose proof (f_equal snd H) as Hses; apply (f_equal fst) in H; cbn [fst snd] in H, Hses; subst ses'. exact (Hset val (fun id => (ss_database ses, id)) e' out H (or_intror eq_refl)).
        - injection H as <- <- <-. apply Hnone; reflexivity. }
      assert (forall cat d b, match fst (create_database d cat) with NDone | NErr _ | NPanic => True | _ => False end /\
        match fst (drop_database d b cat) with NDone | NErr _ | NPanic => True | _ => False end) as Hdb.
      { intros cat d b. unfold create_database, drop_database. split; repeat match goal with |- context [if ?b then _ else _] => destruct b end; exact Logic.I. }
      destruct (ss_tx ses) as [k|] eqn:Hk.
      + (* with a transaction *)
        destruct (session_mine em w m i ses k Htx Hi Hk) as (c & Hc1 & Hc2). pose proof (count_mine I _ em k c Hs Hc2) as Hlt.
        assert (owns m i = true) as Ho by (unfold owns; now rewrite Hc1, Nat.eqb_refl).
        assert (forall j s, nth_error (s_sessions w) j = Some s -> j <> i -> ss_tx s = None) as Hothers.
        { intros j s Hj Hn. rewrite Hc1 in Hcur. destruct Hcur as (k' & _ & _ & H). apply (H j s Hj). congruence. }
        assert (forall cl cat, cl = ECommit k /\ cat = c \/ cl = ERollback k /\ cat = sm_cat m ->
          (match estep I (s_e w) cl with
           | (EPanic, s1) => (EPanic, s1, ses)
           | (o1, s1) => (o1, s1, {| ss_tx := None; ss_database := ss_database ses; ss_schema := ss_schema ses |})
           end) = (out, e', ses') ->
          same_out out NDone /\ sstate I {| s_e := e'; s_sessions := set_nth i ses' (s_sessions w) |} (sm_with m cat None) /\
          interns (e_idt (s_e w)) (e_idt e')) as Hcomplete.
        { intros cl cat Hcl H. destruct (estep I (s_e w) cl) as [o1 e1] eqn:Es.
          assert (known_call (e_idt (s_e w)) cl) as Hkc by (destruct Hcl as [[-> _]|[-> _]]; exact Logic.I).
          destruct (sim_call I _ em cl o1 e1 Hs Hkc Es) as (T1 & T2 & T3).
          assert (mstep em (named (e_idt (s_e w)) cl) = (NDone, {| m_cat := cat; m_cur := None; m_count := m_count em |})) as Hms.
          { destruct Hcl as [[-> ->]|[-> ->]]; cbn [named mstep]; unfold complete_with; rewrite (proj2 (Nat.ltb_lt _ _) Hlt), Hc2, Nat.eqb_refl; [reflexivity|].
            now rewrite Hcat. }
          rewrite Hms in T1, T2. cbn in T1, T2. subst o1. injection H as <- <- <-. split; [reflexivity|]. split; [|exact T3].
          eapply Hdone; [exact T1|exact T3|reflexivity..|exact Hothers]. }
        destruct rst; try discriminate; cbn [smstep]; rewrite ?Ho, ?Hc1.
        * injection Ev as <- <- <-. apply Hnone; reflexivity.
        * cbn [fst snd]. eapply Hcomplete; [left; split; reflexivity|exact Ev].
        * cbn [fst snd]. eapply Hcomplete; [right; split; reflexivity|exact Ev].
        * now apply Hset2.
        * injection Ev as <- <- <-. apply Hnone; reflexivity.
        * injection Ev as <- <- <-. apply Hnone; reflexivity.
      + destruct (session_other em w m i ses Htx Hi Hk) as [Ho Hne].
        destruct rst; try discriminate; cbn [smstep]; rewrite ?Ho.
        * destruct (estep I (s_e w) EBegin) as [o1 e1] eqn:Es. destruct (sim_call I _ em EBegin o1 e1 Hs Logic.I Es) as (T1 & T2 & T3).
          cbn [named mstep] in T1, T2. destruct (sm_cur m) as [[o c]|] eqn:Hc.
          -- destruct Hcur as (k' & Hmc & _). rewrite Hmc in T2. cbn in T2. subst o1. injection Ev as <- <- <-. apply Hnone; [reflexivity| |reflexivity].
             cbn [estep] in Es. destruct (step _ _) as [[]]; congruence.
          -- destruct Hcur as [Hmc Hall]. rewrite Hmc in T1, T2. cbn [fst snd agrees] in T1, T2. subst o1. injection Ev as <- <- <-.
             split; [reflexivity|]. split; [|exact T3]. cbn [fst snd].
             eapply Hintro; [exact T1|exact T3|reflexivity|apply Hmtx|apply Hin|]. split; [exact Hcat|]. cbn [sm_cur sm_with m_cur s_sessions].
             exists (Some (m_count em)). split; [now rewrite Hcat|]. split.
             ++ intros j [= <-]. eexists _, _. rewrite nth_set_nth, Nat.eqb_refl, Hi. split; [reflexivity|]. split; [reflexivity|].
                cbn [ss_tx]. f_equal. exact (rp_count _ _ Rm).
             ++ intros j s Hj Hn. rewrite nth_set_nth in Hj. destruct (j =? i)%nat eqn:Hn'; [apply Nat.eqb_eq in Hn'; congruence|].
                rewrite Forall_forall in Hall. apply Hall. eapply nth_error_In. exact Hj.
        * assert (match sm_cur m with Some (_, _) => (NErr ErrNoTx, m) | None => (NErr ErrNoTx, m) end = (NErr ErrNoTx, m)) as -> by (now destruct (sm_cur m) as [[]|]).
          injection Ev as <- <- <-. apply Hnone; reflexivity.
        * injection Ev as <- <- <-. apply Hnone; reflexivity.
        * now apply Hset2.
        * injection Ev as Ev <-. destruct options as [|o options]; cbn [map] in Ev.
          -- eapply (Hown (ECreateDatabase database []) (fun t => create_database (idString t database)) e' out (fun t => own_transaction m (create_database (idString t database)))); [reflexivity|exact Hkn'| |exact Ev|].
             ++ intros t Ht. split; [|reflexivity]. cbn [named mstep]. now rewrite (proj1 (name_stays _ t _ K Ht Hkn')).
             ++ intros cat t. apply (Hdb cat _ true).
          -- injection Ev as <- <-. apply Hnone; reflexivity.
        * injection Ev as Ev <-.
          eapply (Hown (EDropDatabase database ifExists) (fun t => drop_database (idString t database) ifExists) e' out (fun t => own_transaction m (drop_database (idString t database) ifExists))); [reflexivity|exact Hkn'| |exact Ev|].
          -- intros t Ht. split; [|reflexivity]. cbn [named mstep]. now rewrite (proj1 (name_stays _ t _ K Ht Hkn')).
          -- intros cat t. apply (Hdb cat _ ifExists).
  Qed.
End Statement.
