(** [Parse] and the tape; progress, panics, and what is returned. *)

From Verif Require Import ModelParser SpecParser SpecExpr SpecCreate LemmasBase LemmasScanProps LemmasParserWp LemmasParserSafe LemmasParserRun LemmasCreate.

Section Parse.
  Context {X : FloatLib} {L : CaseLib} {U : RuneLib} {B : BufLib} {P : PrintLib} (HU : RuneLib_scan U).
  Variable input : list Z.
  Variable bad : bool.
  Hypothesis Hbad : bad = false -> forall s, scanning input s -> ~ bad_escape (rest s).
  Notation st := (st input bad).
  Notation ok_tok := (fun c => fine bad (tok_of c)).
  Definition may_crash (past : list tok) : Prop := bad = true \/ set_null past.

  Lemma may_bad : bad = true -> forall past, may_crash past.
  Proof. now left. Qed.
  Lemma may_null past : set_null past -> may_crash past.
  Proof. now right. Qed.

  Lemma st_failed p t b : st p t -> st (set_failed p b) t.
  Proof. intros ((H1 & H2 & H3 & H4 & H5 & H6) & HS & HF). split; [|split; assumption]. unfold on_tape. cbn. auto 10. Qed.

  Lemma fuel_eq p t : st p t -> parse_fuel p = t_fuel t.
  Proof. intros ((H1 & H2 & _) & _). unfold parse_fuel, t_fuel. now rewrite H1, H2. Qed.

  Lemma mu_eq' t : mu t = (fold_right (fun c n => weight (tok_of c) + n) 0 (t_ahead t) + length (rest (t_scanner t)))%nat.
  Proof. exact (mu_eq input bad Hbad t). Qed.

  Lemma fuel_enough t : (mu t < t_fuel t)%nat.
  Proof.
    rewrite mu_eq'. unfold t_fuel. assert (E : (fold_right (fun c n => weight (tok_of c) + n) 0 (t_ahead t) <= length (t_ahead t))%nat).
    { induction (t_ahead t) as [|c l IH]; cbn; [lia|]. destruct (tok_of c); cbn; lia. }
    assert (R : (length (rest (t_scanner t)) <= S (length (s_in (t_scanner t))))%nat).
    { unfold rest. rewrite app_length. destruct (s_unread _); [destruct (_ <? 0)|]; cbn; lia. }
    lia.
  Qed.

  (** The loop behind a failed statement. *)
  Lemma skip_sound n : forall p t, st p t -> (length (t_ahead t) <= 3)%nat -> (mu t < n)%nat ->
    match skipStmt n p, t_skip n t with
    | (None, p'), inr t' => st p' t' /\ (length (t_ahead t') <= 2)%nat /\ (mu t' < mu t)%nat
    | (Some (PErr p'), _), inl (TErr t') => st p' t' /\ (length (t_ahead t') <= 2)%nat /\ (mu t' < mu t)%nat /\ p_failed p' = p_failed p
    | (Some (PEOF p'), _), inl (TEOF t') => st p' t' /\ (length (t_ahead t') <= 2)%nat /\ p_failed p' = p_failed p
    | _, _ => False
    end.
  Proof.
    induction n as [|n IH]; intros p t HT Hu Hn; [lia|]. cbn [skipStmt t_skip]. pose proof (scan_step HU input bad Hbad p t HT) as S.
    destruct (scanRune p) as [[p' e]|]; [|contradiction]. destruct (t_next t) as [[t' e']|]; [|contradiction]. destruct S as (c & <- & S1 & S2 & S3 & S4 & S5 & S6 & S7 & S8 & S9).
    assert (HT' : st p' t') by (now split). destruct e.
    - split; [exact HT'|]. split; [lia|]. rewrite S8 in S7. cbn in S7. split; [lia|exact S4].
    - unfold t_tok. rewrite S3. cbn [hd]. rewrite S6. destruct (tok_of c) eqn:Et; cbn [weight] in S7.
      1: { split; [exact HT'|]. split; [lia|exact S4]. }
      1: { split; [exact HT'|]. lia. }
      all: specialize (IH p' t' HT' ltac:(lia) ltac:(lia)); destruct (skipStmt n p') as [[[]|] ?]; destruct (t_skip n t') as [[]|]; try contradiction; rewrite <- ?S4; intuition lia.
  Qed.

  (** A statement whose first token has been read. *)
  Definition restOf (n : nat) (tk : tok) : act (option stmt) :=
    if rune_of tk =? tEndOfStatement then expectEndOfStatement ;+ ARet None
    else if is_reserved tk stmtKeywords then let+ s := parseStmtOf n (ident_of tk) in expectEndOfStatement ;+ ARet s
    else errorGot.

  Lemma unscan_scan p p' : (p_current p < 3)%nat -> unscan p = Some p' -> scanRune p' = Some (p, false).
  Proof.
    unfold unscan, scanRune. change lookBackAmount with 3%nat. destruct (3 <? S (p_unscanned p))%nat; [discriminate|]. intros Hc [= <-]. cbn [p_unscanned p_scanner p_lookBack p_current p_failed].
    destruct p as [sc lb [|c] un fa]; cbn [p_scanner p_lookBack p_current p_unscanned p_failed] in *; [reflexivity|]. change (3 - 1)%nat with 2%nat. rewrite Nat.add_1_r, Nat.mod_small by lia. reflexivity.
  Qed.
  Lemma back_next t t' : t_back t = Some t' -> t_next t' = Some (t, false).
  Proof. unfold t_back, t_next. destruct t as [[|c past] ahead s]; [discriminate|]. cbn. now intros [= <-]. Qed.

  Lemma run_whole n p p3 : scanRune p = Some (p3, false) -> (p_current p3 < 3)%nat -> (p_unscanned p3 < 3)%nat -> run (parseWhole n) p = run (restOf n (p_tok p3)) p3.
  Proof.
    intros E Hc Hu. unfold parseWhole, parseStmt, maybeToken, scan_. cbn [abind run]. rewrite E. unfold restOf. destruct (rune_of (p_tok p3) =? tEndOfStatement) eqn:E1; cbn [abind].
    - reflexivity.
    - assert (exists p4, unscan p3 = Some p4) as [p4 E4] by (unfold unscan; change lookBackAmount with 3%nat; destruct (Nat.ltb_spec 3 (S (p_unscanned p3))); [lia|eauto]).
      unfold unscan_. cbn [abind run]. rewrite E4. unfold expectReserved, scan_. cbn [abind run]. rewrite (unscan_scan _ _ Hc E4). destruct (is_reserved (p_tok p3) stmtKeywords); [reflexivity|]. unfold errorGot. cbn [abind run]. destruct (p_tok p3) as [| |[|]| | | | | | | |]; reflexivity.
  Qed.
  Lemma t_run_whole n t t3 : t_next t = Some (t3, false) -> t_past t3 <> [] -> t_run (parseWhole n) t = t_run (restOf n (t_tok t3)) t3.
  Proof.
    intros E Hc. unfold parseWhole, parseStmt, maybeToken, scan_. cbn [abind t_run]. rewrite E. unfold restOf. destruct (rune_of (t_tok t3) =? tEndOfStatement) eqn:E1; cbn [abind].
    - reflexivity.
    - assert (exists t4, t_back t3 = Some t4) as [t4 E4] by (unfold t_back; destruct (t_past t3); [contradiction|eauto]).
      unfold unscan_. cbn [abind t_run]. rewrite E4. unfold expectReserved, scan_. cbn [abind t_run]. rewrite (back_next _ _ E4). destruct (is_reserved (t_tok t3) stmtKeywords); [reflexivity|]. unfold errorGot. cbn [abind t_run]. destruct (t_tok t3) as [| |[|]| | | | | | | |]; reflexivity.
  Qed.

  Lemma wp_restOf n tk u m : fine bad tk -> (u <= 2)%nat -> (m < n)%nat ->
    wp bad may_crash m [tk] u m (restOf n tk) (fun p u' m' a => (u' <= 2)%nat /\ (m' <= m)%nat).
  Proof.
    intros F Hu Hm. unfold restOf. destruct (rune_of tk =? tEndOfStatement).
    - apply wp_bind. apply wp_expectEnd; try exact may_bad; try lia; intros; cbn; lia.
    - destruct (is_reserved tk stmtKeywords) eqn:E.
      + apply is_reserved_in in E. destruct E as (id & -> & _). cbn [ident_of]. apply wp_rest; try exact may_bad; try exact may_null; try lia.
      + apply wp_got; try exact may_bad; try lia. exact F.
  Qed.

  (** One call. *)
  Lemma parse_sound p t : st p t -> (length (t_ahead t) <= 2)%nat ->
    match ParseTree p, t_parse (p_failed p) t with
    | PStmt s p', TStmt s' t' => s = s' /\ st p' t' /\ (length (t_ahead t') <= 2)%nat /\ (mu t' < mu t)%nat /\ p_failed p' = false
    | PErr p', TErr t' => st p' t' /\ (length (t_ahead t') <= 2)%nat /\ (mu t' < mu t)%nat /\ p_failed p' = p_failed p
    | PErr p', TFailed t' => st p' t' /\ (length (t_ahead t') <= 2)%nat /\ (mu t' < mu t)%nat /\
        p_failed p' = match t_tok t' with KEnd => false | _ => true end
    | PEOF p', TEOF t' => st p' t' /\ (length (t_ahead t') <= 2)%nat /\ p_failed p' = p_failed p
    | PCrash, TCrash t' => exists cs base, t_past t' = cs ++ base /\ may_crash (map tok_of cs)
    | _, _ => False
    end.
  Proof.
    intros HT Hu. unfold ParseTree, t_parse. pose proof (scan_step HU input bad Hbad p t HT) as S.
    destruct (scanRune p) as [[p' e]|] eqn:Es; [|contradiction]. destruct (t_next t) as [[t' e']|] eqn:En; [|contradiction]. destruct S as (c & <- & S1 & S2 & S3 & S4 & S5 & S6 & S7 & S8 & S9).
    assert (HT' : st p' t') by (now split). destruct e.
    { split; [exact HT'|]. split; [lia|]. rewrite S8 in S7. cbn in S7. split; [lia|exact S4]. }
    assert (Et : t_tok t' = tok_of c) by (unfold t_tok; now rewrite S3). rewrite S6, Et.
    assert (D : tok_of c = KEOF \/ tok_of c <> KEOF) by (destruct (tok_of c); auto; right; discriminate). destruct D as [D|D].
    { rewrite D. split; [exact HT'|]. split; [lia|exact S4]. }
    assert (Ew : weight (tok_of c) = 1%nat) by (destruct (tok_of c); try reflexivity; now elim D).
    destruct (back_step input bad Hbad p' t' c (t_past t) HT' ltac:(lia) S3 S8) as (p2 & E1 & E2 & HT2 & F2). rewrite E1, E2.
    set (t2 := {| t_past := t_past t; t_ahead := c :: t_ahead t'; t_scanner := t_scanner t' |}) in *.
    assert (M2' : mu t2 = S (mu t')) by (rewrite !mu_eq'; cbn [t2 t_ahead t_scanner fold_right]; rewrite Ew; lia).
    assert (M2 : (mu t2 <= mu t)%nat) by lia.
    match goal with |- match ?a with _ => _ end => set (res := a) end.
    match goal with |- match _ with PStmt _ _ => match ?b with _ => _ end | _ => _ end => set (res' := b) end.
    assert (E : res = (let '(o, p0) := if p_failed p2 then skipStmt (parse_fuel p2) p2 else (None, p2) in
                match o with
                | Some r => r
                | None =>
                    let p0 := set_failed p0 false in
                    match run (parseWhole (parse_fuel p0)) p0 with
                    | Done s p => PStmt s p
                    | Failed p => PErr (set_failed p (match p_tok p with KEnd => false | _ => true end))
                    | Crashed _ => PCrash
                    | Stuck => PStuck
                    end
                end)) by (unfold res; destruct (tok_of c); try reflexivity; now elim D). rewrite E. clear E res.
    assert (E : res' = (match (if p_failed p then t_skip (t_fuel t2) t2 else inr t2) with
                | inl r => r
                | inr t =>
                    match t_run (parseWhole (t_fuel t)) t with
                    | Done s t => TStmt s t
                    | Failed t => TFailed t
                    | Crashed t => TCrash t
                    | Stuck => TStuck
                    end
                end)) by (unfold res'; destruct (tok_of c); try reflexivity; now elim D). rewrite E. clear E res'.
    rewrite F2, S4. destruct (p_failed p) eqn:Ef.
    - rewrite (fuel_eq _ _ HT2). pose proof (skip_sound (t_fuel t2) p2 t2 HT2 ltac:(cbn; lia) (fuel_enough t2)) as K.
      destruct (skipStmt (t_fuel t2) p2) as [[[]|] p3]; destruct (t_skip (t_fuel t2) t2) as [[]|t3]; try contradiction; rewrite ?F2, ?S4 in K; try (intuition lia).
      destruct K as (HT3 & U3 & M3). apply (st_failed _ _ false) in HT3. cbv zeta. rewrite (fuel_eq _ _ HT3).
      pose proof (run_sound HU input bad Hbad may_crash (mu t3) (t_past t3) (parseWhole (t_fuel t3)) (set_failed p3 false) t3 [] (mu t3) (fun p u m a => (u <= 2)%nat /\ (m <= mu t3)%nat) HT3 eq_refl
        (Forall_nil _) (le_n _)) as R.
      match type of R with ?A -> _ => assert (W : A); [|specialize (R W); clear W] end.
      { apply wp_parseWhole; try exact may_bad; try exact may_null; try lia. apply fuel_enough. }
      destruct (run _ _) as [a q|q|q|]; try contradiction; destruct (t_run _ _) as [a' q'|q'|q'|]; try contradiction.
      + destruct R as (-> & R1 & R2 & cs' & m' & R3 & R4 & R5 & R6 & R7). split; [reflexivity|]. split; [exact R1|]. split; [exact R6|]. split; [lia|]. exact R2.
      + destruct R as (R1 & R2 & R3 & R4). split; [now apply st_failed|]. split; [lia|]. split; [lia|]. cbn [p_failed set_failed]. f_equal. now rewrite (on_tape_tok input bad Hbad q q') by (try apply R1; assumption).
      + destruct R as (cs' & R1 & R2). eauto.
    - apply (st_failed _ _ false) in HT2. assert (Ep2 : set_failed p2 false = p2) by (destruct p2; cbn in *; now rewrite F2, S4). rewrite Ep2 in HT2 |- *. cbv zeta. rewrite (fuel_eq _ _ HT2).
      assert (Hc : (p_current p' < 3)%nat) by apply S1. assert (Hu' : (p_unscanned p' < 3)%nat) by (destruct S1 as (_ & -> & _); lia).
      rewrite (run_whole _ p2 p' (unscan_scan _ _ Hc E1) Hc Hu'). rewrite (t_run_whole _ t2 t' (back_next _ _ E2)) by (rewrite S3; discriminate). rewrite S6, Et.
      pose proof (run_sound HU input bad Hbad may_crash (mu t') (t_past t) (restOf (t_fuel t2) (tok_of c)) p' t' [c] (mu t') (fun p u m a => (u <= 2)%nat /\ (m <= mu t')%nat) HT' S3
        (@Forall_cons _ ok_tok c [] S8 (Forall_nil _)) (le_n _)) as R.
      match type of R with ?A -> _ => assert (W : A); [|specialize (R W); clear W] end.
      { apply wp_restOf; [exact S8|lia|]. pose proof (fuel_enough t2). lia. }
      destruct (run _ _) as [a q|q|q|]; try contradiction; destruct (t_run _ _) as [a' q'|q'|q'|]; try contradiction.
      + destruct R as (-> & R1 & R2 & cs' & m' & R3 & R4 & R5 & R6 & R7). split; [reflexivity|]. split; [exact R1|]. split; [exact R6|]. split; [lia|]. congruence.
      + destruct R as (R1 & R2 & R3 & R4). split; [now apply st_failed|]. split; [lia|]. split; [lia|]. cbn [p_failed set_failed]. f_equal. now rewrite (on_tape_tok input bad Hbad q q') by (try apply R1; assumption).
      + destruct R as (cs' & R1 & R2). eauto.
  Qed.
End Parse.
