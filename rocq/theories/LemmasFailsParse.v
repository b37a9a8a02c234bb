(** [Parse] and the console with a reader that may fail. *)

From Verif Require Import ModelParserReader SpecParser SpecReader SpecFails LemmasBase LemmasScanner LemmasScanAll LemmasScanProps LemmasParserWp LemmasParserSafe LemmasParserRun LemmasParser LemmasParserEnds LemmasReader LemmasCopyOnly LemmasFails LemmasFuel.

Section Parse.
  Context {X : FloatLib} {L : CaseLib} {U : RuneLib} {B : BufLib} {P : PrintLib} (HU : RuneLib_scan U).
  Notation ok_tok := (fun c => fine true (tok_of c)).
  Notation any := (fun _ : list tok => True).
  Notation ended := (fun (p : list tok) (_ : option stmt) => exists t q, p = t :: q /\ (t = KEnd \/ t = KEOF) /\ good q).
  Notation small m := (fun (_ : list tok) (u' m' : nat) (_ : option stmt) => (u' <= 2)%nat /\ (m' <= m)%nat).

  Lemma never : true = false -> forall s, scanning [] s -> ~ bad_escape (rest s).
  Proof. discriminate. Qed.

  Lemma q_restOf n tk : qp [tk] (restOf n tk) ended.
  Proof.
    assert (E : forall (s : option stmt) q, good q -> qp q (expectEndOfStatement ;+ ARet s) ended).
    { intros s q G. apply qp_bind. unfold expectEndOfStatement. apply qp_bind, q_scan; [apply G|]. intros t. destruct t; try (apply q_got, G); cbn [qp]; eauto 8. }
    unfold restOf. destruct (_ =? _); [apply E, good_one|]. destruct (is_reserved tk stmtKeywords); [|apply q_got, noend_nil]. apply qp_bind. apply k_parseStmtOf; [apply good_one|]. intros p a G. now apply E.
  Qed.
  Lemma w_restOf n tk u m : fine true tk -> (u <= 2)%nat -> (m < n)%nat -> wp true any m [tk] u m (restOf n tk) (small m).
  Proof.
    intros F Hu Hm. unfold restOf. destruct (rune_of tk =? tEndOfStatement).
    - apply wp_bind. apply wp_expectEnd; try (intros; exact Logic.I); try lia; intros; cbn; lia.
    - destruct (is_reserved tk stmtKeywords) eqn:E.
      + apply is_reserved_in in E. destruct E as (id & -> & _). cbn [ident_of]. apply wp_rest; try (intros; exact Logic.I); try lia.
      + apply wp_got; try (intros; exact Logic.I); try lia. exact F.
  Qed.
  Lemma w_parseWhole n past u m : (u <= 2)%nat -> (m < n)%nat -> wp true any m past u m (parseWhole n) (small m).
  Proof. intros Hu Hm. apply wp_parseWhole; try (intros; exact Logic.I); try lia. Qed.

  Lemma st_set p t b : st p t -> st (set_failed p b) t.
  Proof. intros ((H1 & H2 & H3 & H4 & H5 & H6) & HS). split; [|exact HS]. unfold on_tape. cbn. auto 10. Qed.

  (** ** With some number of steps *)
  Definition endsE (n : nat) (p : parser) : parsed :=
    match runE (parseWhole n) p with
    | Done s p => PStmt s p
    | Failed p => PErr (set_failed p (match p_tok p with KEnd => false | _ => true end))
    | Crashed _ => PCrash
    | Stuck => PStuck
    end.
  Definition afterE (f : parser -> nat) (p : parser) : parsed :=
    match (if p_failed p then skipStmtE (f p) p else (None, p)) with
    | (Some r, _) => r
    | (None, p) => endsE (f (set_failed p false)) (set_failed p false)
    end.
  Definition treeE (f : parser -> nat) (p : parser) : parsed :=
    match scanRuneE p with
    | None => PStuck
    | Some (p, true) => PErr p
    | Some (p, false) =>
        match p_tok p with
        | KEOF => PEOF p
        | _ => match unscan p with None => PCrash | Some p => afterE f p end
        end
    end.
  Definition ends_ (n : nat) (p : parser) : parsed :=
    match run (parseWhole n) p with
    | Done s p => PStmt s p
    | Failed p => PErr (set_failed p (match p_tok p with KEnd => false | _ => true end))
    | Crashed _ => PCrash
    | Stuck => PStuck
    end.
  Definition after (f : parser -> nat) (p : parser) : parsed :=
    match (if p_failed p then skipStmt (f p) p else (None, p)) with
    | (Some r, _) => r
    | (None, p) => ends_ (f (set_failed p false)) (set_failed p false)
    end.
  Definition tree (f : parser -> nat) (p : parser) : parsed :=
    match scanRune p with
    | None => PStuck
    | Some (p, true) => PErr p
    | Some (p, false) =>
        match p_tok p with
        | KEOF => PEOF p
        | _ => match unscan p with None => PCrash | Some p => after f p end
        end
    end.

  Lemma eof_dec (k : tok) : {k = KEOF} + {k <> KEOF}.
  Proof. destruct k; ((now left) || (right; discriminate)). Defined.
  Lemma if_eof {A} (k : tok) (a b : A) : match k with KEOF => a | _ => b end = if eof_dec k then a else b.
  Proof. destruct k; reflexivity. Qed.

  Lemma fits_runE {A} (g h : act A) : fits g h -> forall p, runE g p <> Stuck -> runE h p = runE g p.
  Proof.
    induction 1 as [g|h|k k' H IH|k k' H IH|k k' H IH|s k k' H IH|s k k' H IH|s k k' H IH|k k' H IH]; intros p N; cbn [runE] in *; auto; try contradiction.
    - destruct (scanRuneE p) as [[p' [|]]|]; auto.
    - destruct (unscan p); auto.
    - destruct (ID _ s false). auto.
  Qed.
  Lemma skip_moreE n : forall m p, (n <= m)%nat -> fst (skipStmtE n p) <> Some PStuck -> skipStmtE m p = skipStmtE n p.
  Proof.
    induction n as [|n IH]; intros m p Hm H; [now elim H|]. destruct m as [|m]; [lia|]. cbn [skipStmtE] in *. destruct (scanRuneE p) as [[p' [|]]|]; try reflexivity.
    destruct (p_tok p'); try reflexivity; apply IH; (lia || exact H).
  Qed.
  Lemma skip_more n : forall m p, (n <= m)%nat -> fst (skipStmt n p) <> Some PStuck -> skipStmt m p = skipStmt n p.
  Proof.
    induction n as [|n IH]; intros m p Hm H; [now elim H|]. destruct m as [|m]; [lia|]. cbn [skipStmt] in *. destruct (scanRune p) as [[p' [|]]|]; try reflexivity.
    destruct (p_tok p'); try reflexivity; apply IH; (lia || exact H).
  Qed.
  Lemma ends_moreE n m p : (n <= m)%nat -> endsE n p <> PStuck -> endsE m p = endsE n p.
  Proof. unfold endsE. intros Hn H. rewrite (fits_runE (parseWhole n) (parseWhole m)); [reflexivity|now apply f_parseWhole|]. intros Z. rewrite Z in H. now apply H. Qed.
  Lemma ends_more n m p : (n <= m)%nat -> ends_ n p <> PStuck -> ends_ m p = ends_ n p.
  Proof. unfold ends_. intros Hn H. rewrite (fits_run (parseWhole n) (parseWhole m)); [reflexivity|now apply f_parseWhole|]. intros Z. rewrite Z in H. now apply H. Qed.
  Lemma tree_more f g p : (forall q, f q <= g q)%nat -> tree f p <> PStuck -> tree g p = tree f p.
  Proof.
    unfold tree. intros Hn. destruct (scanRune p) as [[p1 [|]]|]; try reflexivity. rewrite !if_eof. destruct (eof_dec (p_tok p1)); [reflexivity|]. destruct (unscan p1) as [p2|]; [|reflexivity].
    unfold after. destruct (p_failed p2); [|now apply ends_more]. destruct (skipStmt (f p2) p2) as [o p3] eqn:E. intros H.
    rewrite (skip_more (f p2) (g p2) p2 (Hn p2)); rewrite E; [|cbn; intros ->; now apply H]. destruct o; [reflexivity|]. now apply ends_more.
  Qed.

  (** ** Skipping *)
  Lemma skip_total n : forall p t, st p t -> lone t -> (mu t < n)%nat ->
    match skipStmtE n p with
    | (None, p') => exists t', st p' t' /\ t_ahead t' = [] /\ (mu t' < mu t)%nat /\ kept t t'
    | (Some (PErr p'), _) => exists t', st p' t' /\ t_ahead t' = [] /\ (mu t' < mu t)%nat /\ p_failed p' = p_failed p
    | (Some (PEOF p'), _) => exists t', st p' t' /\ (length (t_ahead t') <= 2)%nat /\ lone t' /\ p_failed p' = p_failed p /\ p_in p' = []
    | _ => False
    end.
  Proof.
    induction n as [|n IH]; intros p t HT Hl Hn; [lia|]. cbn [skipStmtE]. destruct (step HU p t HT) as (p' & e & t' & c & S0 & S1 & S3 & S4 & S5 & S6 & S7 & S8 & S9). rewrite S0.
    assert (Hl' : lone t') by (destruct S9 as [(S9 & _)|(_ & S9 & _)]; [exact (lone_tail _ _ _ Hl S9)|unfold lone; rewrite S9; intros []]).
    destruct e.
    - destruct S9 as [(_ & _ & ?)|(_ & S9 & _)]; [discriminate|]. exists t'. split; [exact S1|]. split; [exact S9|]. rewrite S8 in S7. cbn in S7. split; [lia|exact S4].
    - assert (K : kept t t').
      { intros K. destruct S9 as [(S9 & S10 & _)|(S9 & S10 & S11)].
        - rewrite S10, S9, S3. split; [exact K|]. cbn [rev]. now rewrite <- app_assoc.
        - destruct (scan_pend HU (t_scanner t) (nth 2 (t_past t) c_zero) K) as (s1 & c1 & J1 & J2 & _). rewrite J1 in S11. injection S11 as _ <-. destruct S8 as [S8 _]. now elim S8. }
      rewrite S6. destruct (tok_of c) eqn:Et; cbn [weight] in S7.
      1: { exists t'. split; [exact S1|]. split; [destruct HT as ((_ & _ & HT & _) & _); lia|]. split; [exact Hl'|]. split; [exact S4|]. unfold p_in. replace (p_scanner p') with (t_scanner t') by (symmetry; apply S1). apply S1. rewrite S3. unfold toks. rewrite map_app. apply in_or_app. right. left. exact Et. }
      1: { exists t'. split; [exact S1|]. split; [|split; [lia|exact K]]. destruct S9 as [(S9 & _)|(_ & S9 & _)]; [exact (lone_end _ _ _ Hl S9 Et)|exact S9]. }
      all: specialize (IH p' t' S1 Hl' ltac:(lia)); destruct (skipStmtE n p') as [[[]|] q]; try contradiction; destruct IH as (t2 & J1 & J2 & J3 & J4); exists t2; rewrite <- ?S4; do 3 (split; [assumption || lia || apply J4|]); solve [apply J4|exact (kept_trans _ _ _ K J4)].
  Qed.

  Definition clean_skip (n : nat) (p : parser) (u m : list Z) : Prop :=
    exists v, text v /\
      match skipStmtE n p with
      | (None, q) => p_in q = v ++ tError :: m /\ forall t, text t -> skipStmt n (instead p (u ++ t)) = (None, instead q (v ++ t))
      | (Some (PErr q), _) => p_in q = v ++ tError :: m /\ forall t, text t -> skipStmt n (instead p (u ++ t)) = (Some (PErr (instead q (v ++ t))), instead q (v ++ t))
      | _ => False
      end.
  Definition is_err (r : option parsed * parser) : Prop := match r with (Some (PErr _), _) => True | _ => False end.

  Lemma skip_pend n p t : st p t -> lone t -> (mu t < n)%nat -> pend (t_scanner t) -> Forall (fun c => tok_of c <> KEnd /\ tok_of c <> KEOF) (t_ahead t) -> is_err (skipStmtE n p).
  Proof.
    revert p t. induction n as [|n IH]; intros p t HT Hl Hn Hp Hf; [lia|]. cbn [skipStmtE]. destruct (step HU p t HT) as (p' & e & t' & c & S0 & S1 & S3 & S4 & S5 & S6 & S7 & S8 & S9). rewrite S0.
    destruct e; [exact Logic.I|]. destruct S9 as [(S9 & S10 & _)|(S9 & S10 & S11)].
    - rewrite S9 in Hf. inversion Hf as [|? ? [F1 F2] F3]; subst. rewrite S6. assert (W : weight (tok_of c) = 1%nat) by (destruct (tok_of c); try reflexivity; now elim F2).
      assert (K : is_err (skipStmtE n p')) by (apply (IH p' t'); [exact S1|exact (lone_tail _ _ _ Hl S9)|lia|now rewrite S10|exact F3]).
      destruct (tok_of c); try exact K; [now elim F2|now elim F1].
    - destruct (scan_pend HU (t_scanner t) (nth 2 (t_past t) c_zero) Hp) as (s1 & c1 & J1 & J2 & _). rewrite J1 in S11. injection S11 as _ <-. destruct S8 as [S8 _]. now elim S8.
  Qed.

  Lemma in_nonempty p (u m : list Z) : p_in p = u ++ tError :: m -> p_in p <> [].
  Proof. intros -> E. now destruct u. Qed.

  Lemma skip_cases n : forall p t u m, st p t -> lone t -> (mu t < n)%nat -> p_in p = u ++ tError :: m -> text u ->
    clean_skip n p u m \/ is_err (skipStmtE n p).
  Proof.
    induction n as [|n IH]; intros p t u m HT Hl Hn E F; [lia|]. destruct (rune_cases HU 0%nat p t u m HT E F) as (p' & e & t' & c & S0 & S1 & S3 & S4 & S5 & S6 & S7 & S8 & S9 & S10).
    unfold clean_skip. cbn [skipStmtE skipStmt]. rewrite S0. destruct e; [now right|].
    assert (Hl' : lone t') by (destruct S9 as [(S9 & _)|(_ & S9 & _)]; [exact (lone_tail _ _ _ Hl S9)|unfold lone; rewrite S9; intros []]).
    rewrite S6. destruct S10 as [(v & V1 & V2 & V3)|(V0 & V2 & [V3|(V3 & V4 & V5)])]; [|discriminate|].
    - assert (Ne : tok_of c <> KEOF).
      { intros K. apply (in_nonempty _ _ _ V2). unfold p_in. replace (p_scanner p') with (t_scanner t') by (symmetry; apply S1). apply S1. rewrite S3. unfold toks. rewrite map_app. apply in_or_app. right. left. exact K. }
      assert (W : weight (tok_of c) = 1%nat) by (destruct (tok_of c); try reflexivity; now elim Ne).
      specialize (IH p' t' v m S1 Hl' ltac:(lia) V2 V1). unfold clean_skip in IH.
      assert (Q : forall l, text l -> scanRune (instead p (u ++ l)) = Some (instead p' (v ++ l), false) /\ p_tok (instead p' (v ++ l)) = tok_of c) by (intros l Fl; split; [now apply V3|exact S6]).
      destruct (tok_of c) eqn:Et; [now elim Ne| |..].
      1: { left. exists v. split; [exact V1|]. split; [exact V2|]. intros z0 Fl. destruct (Q z0 Fl) as [-> Q2]. now rewrite Q2. }
      all: destruct IH as [(v' & J1 & J2)|J]; [left; exists v'; split; [exact J1|]|right; exact J]; destruct (skipStmtE n p') as [[[]|] q]; try contradiction; (destruct J2 as [J2 J3]; split; [exact J2|]; intros z0 Fl; destruct (Q z0 Fl) as [-> Q2]; rewrite Q2; now apply J3).
    - right. assert (Ne : tok_of c <> KEOF) by (intros K; apply V5; rewrite S3; unfold toks; rewrite map_app; apply in_or_app; right; left; exact K).
      assert (W : weight (tok_of c) = 1%nat) by (destruct (tok_of c); try reflexivity; now elim Ne).
      assert (Ea : t_ahead t' = []).
      { destruct S9 as [(S9 & _)|(_ & S9 & _)]; [|exact S9]. rewrite V0 in S9. discriminate. }
      assert (K : is_err (skipStmtE n p')) by (apply (skip_pend n p' t'); [exact S1|exact Hl'|lia|exact V3|rewrite Ea; constructor]).
      destruct (tok_of c); try exact K; [now elim Ne|now elim V4].
  Qed.

  (** ** One call *)
  Lemma unscan_scanE p p' : (p_current p < 3)%nat -> unscan p = Some p' -> scanRuneE p' = Some (p, false).
  Proof.
    unfold unscan, scanRuneE. change lookBackAmount with 3%nat. destruct (3 <? S (p_unscanned p))%nat; [discriminate|]. intros Hc [= <-]. cbn [p_unscanned p_scanner p_lookBack p_current p_failed].
    destruct p as [sc lb [|c] un fa]; cbn [p_scanner p_lookBack p_current p_unscanned p_failed] in *; [reflexivity|]. change (3 - 1)%nat with 2%nat. rewrite Nat.add_1_r, Nat.mod_small by lia. reflexivity.
  Qed.
  Lemma whole_runE n p p3 : scanRuneE p = Some (p3, false) -> (p_current p3 < 3)%nat -> (p_unscanned p3 < 3)%nat -> runE (parseWhole n) p = runE (restOf n (p_tok p3)) p3.
  Proof.
    intros E Hc Hu. unfold parseWhole, parseStmt, maybeToken, scan_. cbn [abind runE]. rewrite E. unfold restOf. destruct (rune_of (p_tok p3) =? tEndOfStatement) eqn:E1; cbn [abind].
    - reflexivity.
    - assert (exists p4, unscan p3 = Some p4) as [p4 E4] by (unfold unscan; change lookBackAmount with 3%nat; destruct (Nat.ltb_spec 3 (S (p_unscanned p3))); [lia|eauto]).
      unfold unscan_. cbn [abind runE]. rewrite E4. unfold expectReserved, scan_. cbn [abind runE]. rewrite (unscan_scanE _ _ Hc E4). destruct (is_reserved (p_tok p3) stmtKeywords); [reflexivity|]. unfold errorGot. cbn [abind runE]. destruct (p_tok p3) as [| |[|]| | | | | | | |]; reflexivity.
  Qed.

  Lemma fuel_is p t : st p t -> parse_fuel p = t_fuel t.
  Proof. intros ((H1 & H2 & _) & _). unfold parse_fuel, t_fuel. now rewrite H1, H2. Qed.
  Lemma enough t : (mu t < t_fuel t)%nat.
  Proof. exact (fuel_enough [] true never t). Qed.

  Definition between (p : parser) (t : tape) : Prop := st p t /\ (length (t_ahead t) <= 2)%nat /\ lone t.
  Definition went (t : tape) (r : parsed) : Prop :=
    match r with
    | PStmt _ q | PErr q => exists t', between q t' /\ (mu t' < mu t)%nat
    | PEOF q => exists t', between q t' /\ p_in q = []
    | PCrash => True
    | PStuck => False
    end.

  Lemma no_end_lost base a p' : lost (A := option stmt) base ended a p' -> False.
  Proof.
    intros (t' & cs' & c & l & J1 & J2 & (k & q & J3 & J4 & J5) & J6 & J7 & J8 & J9). destruct cs' as [|d cs]; [discriminate|]. cbn [toks map] in J3. injection J3 as J3 J3'.
    assert (K : k = KEnd).
    { destruct J4 as [J4|J4]; [exact J4|]. exfalso. apply J9. rewrite <- J7, J2. unfold toks. rewrite map_app. apply in_or_app. right. cbn. left. congruence. }
    rewrite J2 in J7. destruct (rev (t_ahead t')) as [|a' l'] eqn:Er.
    - cbn [app] in J7. injection J7 as J7 _. apply J8. congruence.
    - unfold win, noend in J6. rewrite Er in J6. cbn [app tl toks map] in J6. apply J6. unfold toks. rewrite map_app, removelast_app by discriminate. apply in_or_app. right.
      cbn [map]. destruct J5 as [J5 _]. unfold toks in J3'. rewrite J3'. destruct q; [contradiction|]. cbn [removelast]. left. congruence.
  Qed.

  (** The statement itself, from behind its first token or before it. *)
  Lemma ends_went n p t : st p t -> (length (t_ahead t) <= 2)%nat -> (mu t < n)%nat -> win t [] -> p_failed p = false ->
    match endsE n p with
    | PStmt _ q | PErr q => exists t', between q t' /\ (mu t' <= mu t)%nat
    | PCrash => True
    | PStuck | PEOF _ => False
    end.
  Proof.
    intros HT Hu Hn HN Hf. unfold endsE. pose proof (act_total HU any (mu t) (t_past t) (parseWhole n) p t [] (mu t) (small (mu t)) ended HT eq_refl (Forall_nil _) (le_n _) (w_parseWhole n [] _ _ Hu Hn) (q_parseWhole n) HN) as R.
    destruct (runE _ _) as [a q|q|q|]; auto.
    - destruct R as (t' & cs' & m' & R1 & R2 & R3 & R4 & R5 & (R6 & R7) & (k & q' & R8 & _) & R9 & _). exists t'. split; [|lia]. split; [exact R1|]. split; [exact R6|]. apply (win_lone t' cs'); [|exact R9]. intros ->. discriminate.
    - destruct R as (t' & R1 & R2 & R3 & R4 & R5). exists t'. split; [|exact R4]. split; [now apply st_set|]. split; [lia|exact R5].
  Qed.
  Lemma rest_went n p t c base : st p t -> (length (t_ahead t) <= 2)%nat -> (mu t < n)%nat -> t_past t = c :: base -> fine true (tok_of c) -> win t [c] ->
    match runE (restOf n (tok_of c)) p with
    | Done _ q => exists t', between q t' /\ (mu t' <= mu t)%nat
    | Failed q => exists t', between q t' /\ (mu t' <= mu t)%nat
    | Crashed _ => True
    | Stuck => False
    end.
  Proof.
    intros HT Hu Hn Ep Hc HN. pose proof (act_total HU any (mu t) base (restOf n (tok_of c)) p t [c] (mu t) (small (mu t)) ended HT Ep (@Forall_cons _ ok_tok c [] Hc (Forall_nil _)) (le_n _) (w_restOf n (tok_of c) _ _ Hc Hu Hn) (q_restOf n (tok_of c)) HN) as R.
    destruct (runE _ _) as [a q|q|q|]; auto.
    - destruct R as (t' & cs' & m' & R1 & R2 & R3 & R4 & R5 & (R6 & R7) & (k & q' & R8 & _) & R9 & _). exists t'. split; [|lia]. split; [exact R1|]. split; [exact R6|]. apply (win_lone t' cs'); [|exact R9]. intros ->. discriminate.
    - destruct R as (t' & R1 & R2 & R3 & R4 & R5). exists t'. split; [|exact R4]. split; [exact R1|]. split; [lia|exact R5].
  Qed.
  Lemma between_set p t b : between p t -> between (set_failed p b) t.
  Proof. intros (H1 & H2 & H3). split; [now apply st_set|now split]. Qed.
  Lemma set_same p b : p_failed p = b -> set_failed p b = p.
  Proof. intros <-. now destruct p. Qed.

  Lemma window_first t t' c : lone t -> t_past t' = c :: t_past t -> (forall e, moved t t' c e -> win t' [c]).
  Proof.
    intros Hl Ep e [(H1 & _)|(H1 & H2 & _)]; unfold win.
    - pose proof (lone_tail _ _ _ Hl H1) as K. unfold lone in Hl. rewrite H1 in Hl. cbn [rev] in Hl. unfold noend, toks in *. intros N. apply Hl.
      destruct (rev (t_ahead t')) as [|a l]; [destruct N|]. cbn [app map tl] in *. rewrite map_app in N |- *. cbn [map] in N. rewrite removelast_last in N. apply in_or_app. now left.
    - rewrite H2. intros [].
  Qed.

  Lemma tree_went f p t : between p t -> (forall q t', st q t' -> (mu t' <= S (mu t))%nat -> (mu t' < f q)%nat) -> went t (treeE f p).
  Proof.
    intros (HT & Hu & Hl) Hn. unfold treeE. destruct (step HU p t HT) as (p' & e & t' & c & S0 & S1 & S3 & S4 & S5 & S6 & S7 & S8 & S9). rewrite S0.
    assert (Hl' : lone t') by (destruct S9 as [(S9 & _)|(_ & S9 & _)]; [exact (lone_tail _ _ _ Hl S9)|unfold lone; rewrite S9; intros []]).
    assert (HB : between p' t') by (split; [exact S1|split; [lia|exact Hl']]).
    destruct e; [exists t'; split; [exact HB|]; rewrite S8 in S7; cbn in S7; lia|]. rewrite if_eof, S6. destruct (eof_dec (tok_of c)) as [Et|Et].
    { exists t'. split; [exact HB|]. unfold p_in. replace (p_scanner p') with (t_scanner t') by (symmetry; apply S1). apply S1. rewrite S3. unfold toks. rewrite map_app. apply in_or_app. right. left. exact Et. }
    assert (Ew : weight (tok_of c) = 1%nat) by (destruct (tok_of c); try reflexivity; now elim Et).
    destruct (back p' t' c (t_past t) S1 ltac:(lia) S3 S8) as (p2 & E1 & HT2 & F2). rewrite E1. set (t2 := {| t_past := t_past t; t_ahead := c :: t_ahead t'; t_scanner := t_scanner t' |}) in *.
    assert (M2 : mu t2 = S (mu t')) by (rewrite !mu_is; cbn [t2 t_ahead t_scanner fold_right]; rewrite Ew; lia).
    unfold afterE. destruct (p_failed p2) eqn:Ef.
    - assert (Hl2 : lone t2).
      { destruct S9 as [(S9 & _)|(_ & S9 & _)]; unfold lone, t2 in *; cbn [t_ahead]; [rewrite <- S9; exact Hl|]. rewrite S9. intros []. }
      pose proof (skip_total (f p2) p2 t2 HT2 Hl2 (Hn _ _ HT2 ltac:(lia))) as K. destruct (skipStmtE (f p2) p2) as [[[]|] q]; try contradiction.
      + destruct K as (t3 & K1 & K2 & K3 & K4). exists t3. split; [|lia]. split; [exact K1|]. unfold lone. rewrite K2. cbn. split; [lia|intros []].
      + destruct K as (t3 & K1 & K2 & K3 & K4 & K5). exists t3. split; [split; [exact K1|now split]|exact K5].
      + destruct K as (t3 & K1 & K2 & K3 & K4). assert (HN : win t3 []) by (unfold win; rewrite K2; intros []).
        pose proof (ends_went (f (set_failed q false)) (set_failed q false) t3 (st_set _ _ false K1) ltac:(rewrite K2; cbn; lia) (Hn _ _ (st_set _ _ false K1) ltac:(lia)) HN eq_refl) as R. destruct (endsE _ _); try exact R; try contradiction; destruct R as (t4 & R1 & R2); exists t4; (split; [exact R1|lia]).
    - rewrite (set_same _ _ Ef). unfold endsE. assert (Hc : (p_current p' < 3)%nat) by apply S1. assert (Hu' : (p_unscanned p' < 3)%nat) by (destruct S1 as ((_ & -> & _) & _); lia).
      rewrite (whole_runE (f p2) p2 p' (unscan_scanE _ _ Hc E1) Hc Hu'). rewrite S6. pose proof (rest_went (f p2) p' t' c (t_past t) S1 ltac:(lia) ltac:(pose proof (Hn _ _ HT2 ltac:(lia)); lia) S3 S8 (window_first t t' c Hl S3 _ S9)) as R.
      destruct (runE _ p') as [a q|q|q|]; try exact R; destruct R as (t4 & R1 & R2); exists t4; (split; [try apply between_set; exact R1|lia]).
  Qed.

  Lemma treeE_more f g p : (forall q, f q <= g q)%nat -> treeE f p <> PStuck -> treeE g p = treeE f p.
  Proof.
    unfold treeE. intros Hn. destruct (scanRuneE p) as [[p1 [|]]|]; try reflexivity. rewrite !if_eof. destruct (eof_dec (p_tok p1)); [reflexivity|]. destruct (unscan p1) as [p2|]; [|reflexivity].
    unfold afterE. destruct (p_failed p2); [|now apply ends_moreE]. destruct (skipStmtE (f p2) p2) as [o p3] eqn:E. intros H.
    rewrite (skip_moreE (f p2) (g p2) p2 (Hn p2)); rewrite E; [|cbn; intros ->; now apply H]. destruct o; [reflexivity|]. now apply ends_moreE.
  Qed.
End Parse.
