(** What a call of [Parse] does with a read that fails. *)

From Verif Require Import ModelParserReader SpecParser SpecReader SpecFails LemmasBase LemmasScanner LemmasScanAll LemmasScanProps LemmasParserWp LemmasParserSafe LemmasParserRun LemmasParser LemmasParserEnds LemmasReader LemmasCopyOnly LemmasFails LemmasFuel LemmasFailsParse.

Section Told.
  Context {X : FloatLib} {L : CaseLib} {U : RuneLib} {B : BufLib} {P : PrintLib} (HU : RuneLib_scan U).

  (** ** How many reads fail *)
  Definition phi (s : scanner) : nat := (fails (s_in s) + (if s_unread s && (s_read s =? 0)%Z then 1 else 0))%nat.
  Lemma phi_ge s : (fails (s_in s) <= phi s)%nat.
  Proof. unfold phi. lia. Qed.
  Lemma phi_le s : (phi s <= S (fails (s_in s)))%nat.
  Proof. unfold phi. destruct (_ && _); lia. Qed.
  Lemma phi_pend s : pend s -> phi s = S (fails (s_in s)).
  Proof. intros [H1 H2]. unfold phi. rewrite H1, H2. cbn. lia. Qed.
  Lemma pend_dec s : pend s \/ phi s = fails (s_in s).
  Proof. unfold phi, pend. destruct (s_unread s); cbn; [|lia]. destruct (Z.eqb_spec (s_read s) 0); [now left|lia]. Qed.
  Lemma fails_text l : text l -> fails l = 0%nat.
  Proof. induction 1 as [|r l H Hl IH]; [reflexivity|]. cbn. destruct (Z.eqb_spec r (-3)); [lia|exact IH]. Qed.
  Lemma fails_app u m : text u -> fails (u ++ tError :: m) = S (fails m).
  Proof. induction 1 as [|r l H Hl IH]; [reflexivity|]. cbn. destruct (Z.eqb_spec r (-3)); [lia|exact IH]. Qed.

  Lemma scan_count s c s' c' : rsane s -> ScanE s c = Some (s', c') ->
    (tok_of c' = KError true /\ (phi s <= S (fails (s_in s')))%nat) \/ (phi s <= phi s')%nat.
  Proof.
    intros Hs E. destruct (pend_dec s) as [Hp|Hp].
    - destruct (scan_pend HU s c Hp) as (s1 & c1 & E1 & T1 & T2). rewrite E in E1. injection E1 as -> ->. left. split; [exact T1|]. rewrite (phi_pend s Hp), T2. lia.
    - rewrite Hp. destruct (item_split _ (proj1 Hs)) as [F|(u & m & Em & F & _)].
      + rewrite (fails_text _ F). right. lia.
      + destruct (scan_cases HU s c u m Hs Em F) as (s1 & c1 & E1 & _ & _ & _ & [(v & V1 & V2 & _)|(V1 & [V2|(V2 & _)])]); rewrite E in E1; injection E1 as -> ->; rewrite Em, (fails_app _ _ F).
        * right. pose proof (phi_ge s1) as K. rewrite V2, (fails_app _ _ V1) in K. exact K.
        * left. split; [exact V2|]. rewrite V1. lia.
        * right. rewrite (phi_pend _ V2), V1. lia.
  Qed.
  Definition count (p : parser) : nat := phi (p_scanner p).
  Lemma rune_count p p' e : rsane (p_scanner p) -> scanRuneE p = Some (p', e) ->
    rsane (p_scanner p') /\ if e then (count p <= S (fails (p_in p')))%nat else (count p <= count p')%nat.
  Proof.
    unfold scanRuneE. intros Hs. destruct (p_unscanned p).
    - destruct (ScanE (p_scanner p) _) as [[s c]|] eqn:E; [|discriminate]. intros [= <- <-]. unfold count, p_in. cbn [p_scanner].
      destruct (scan_total HU (p_scanner p) (nth ((p_current p + 1) mod lookBackAmount) (p_lookBack p) c_zero) Hs) as (s1 & c1 & E1 & K & _). rewrite E in E1. injection E1 as -> ->. split; [exact K|].
      destruct (scan_count _ _ _ _ Hs E) as [(T1 & T2)|T]; [now rewrite T1|]. pose proof (phi_le s1). destruct (tok_of c1) as [| |[|]| | | | | | | |]; lia.
    - intros [= <- <-]. split; [exact Hs|]. unfold count. cbn. lia.
  Qed.

  Lemma act_count {A} (g : act A) : noread g -> forall p, rsane (p_scanner p) ->
    match runE g p with Done _ q => (count p <= count q)%nat | Failed q => (count p <= S (fails (p_in q)))%nat | _ => True end.
  Proof.
    induction g as [a| | | |k IH|k IH|k IH|s k IH|i k IH|l k IH|k IH]; intros H p Hs; cbn [noread runE] in *; auto; try contradiction.
    - apply phi_le.
    - destruct (scanRuneE p) as [[p' e]|] eqn:E; [|exact Logic.I]. destruct (rune_count _ _ _ Hs E) as (K1 & K2). destruct e; [exact K2|]. specialize (IH (p_tok p') (H _) p' K1). destruct (runE _ _); auto; lia.
    - destruct (unscan p) as [p'|] eqn:E; [|exact Logic.I]. assert (K : p_scanner p' = p_scanner p) by (unfold unscan in E; destruct (_ <? _)%nat; [discriminate|now injection E as <-]).
      specialize (IH H p'). unfold count in *. rewrite K in IH. now apply IH.
    - now apply IH.
    - destruct (ID _ s false) as [ids id]. now apply (IH id (H id) (set_scanner p (set_ids (p_scanner p) ids))).
    - now apply IH.
    - now apply IH.
  Qed.
  Lemma drop_count l : (fails l <= S (fails (fst (dropLineE l))))%nat.
  Proof. induction l as [|r l IH]; [cbn; lia|]. cbn [dropLineE fails]. destruct (Z.eqb_spec r (-3)); [cbn; lia|]. destruct (r =? 10); [cbn; lia|exact IH]. Qed.
  Lemma reader_count s : (phi s <= S (phi (RuneReaderE s)))%nat.
  Proof. unfold phi. rewrite reader_in. pose proof (drop_count (s_in s)). replace (s_unread (RuneReaderE s)) with (s_unread s) by (unfold RuneReaderE; now destruct (dropLineE (s_in s))). replace (s_read (RuneReaderE s)) with (s_read s) by (unfold RuneReaderE; now destruct (dropLineE (s_in s))). destruct (_ && _); lia. Qed.
  Lemma act_count2 {A} (R : A -> Prop) (g : act A) : reads R g -> forall p, rsane (p_scanner p) ->
    match runE g p with Done _ q => (count p <= S (count q))%nat | Failed q => (count p <= S (S (fails (p_in q))))%nat | _ => True end.
  Proof.
    induction g as [a| | | |k IH|k IH|k IH|s k IH|i k IH|l k IH|k IH]; intros H p Hs; cbn [reads runE] in *; auto; try contradiction.
    - unfold count, p_in. pose proof (phi_le (p_scanner p)). lia.
    - destruct (scanRuneE p) as [[p' e]|] eqn:E; [|exact Logic.I]. destruct (rune_count _ _ _ Hs E) as (K1 & K2). destruct e; [lia|]. specialize (IH (p_tok p') (H _) p' K1). destruct (runE _ _); auto; lia.
    - destruct (unscan p) as [p'|] eqn:E; [|exact Logic.I]. assert (K : p_scanner p' = p_scanner p) by (unfold unscan in E; destruct (_ <? _)%nat; [discriminate|now injection E as <-]).
      specialize (IH H p'). unfold count in *. rewrite K in IH. now apply IH.
    - now apply IH.
    - destruct (ID _ s false) as [ids id]. now apply (IH id (H id) (set_scanner p (set_ids (p_scanner p) ids))).
    - now apply IH.
    - now apply IH.
    - destruct (H (s_line (RuneReaderE (p_scanner p)))) as [H1 _]. pose proof (act_count _ H1 (set_scanner p (RuneReaderE (p_scanner p))) (reader_rsane _ Hs)) as K.
      pose proof (reader_count (p_scanner p)) as J. cbv zeta. unfold count in *. cbn [p_scanner set_scanner] in K. destruct (runE _ _); auto; lia.
  Qed.
  Lemma skip_count n : forall p, rsane (p_scanner p) ->
    match skipStmtE n p with (None, q) => (count p <= count q)%nat /\ rsane (p_scanner q) | (Some (PErr q), _) => (count p <= S (fails (p_in q)))%nat | (Some (PStmt _ _), _) => False | _ => True end.
  Proof.
    induction n as [|n IH]; intros p Hs; [exact Logic.I|]. cbn [skipStmtE]. destruct (scanRuneE p) as [[p' e]|] eqn:E; [|exact Logic.I]. destruct (rune_count _ _ _ Hs E) as (K1 & K2). destruct e; [exact K2|].
    specialize (IH p' K1). destruct (p_tok p'); auto; destruct (skipStmtE n p') as [[[]|] q]; auto; first [lia|destruct IH; split; [lia|assumption]].
  Qed.

  Definition counted (p : parser) (r : parsed) : Prop :=
    match r with PStmt _ q | PErr q => (fails (p_in p) <= S (S (fails (p_in q))))%nat | _ => True end.
  Lemma tree_count f p : rsane (p_scanner p) -> counted p (treeE f p).
  Proof.
    intros Hs. unfold treeE. pose proof (phi_ge (p_scanner p)) as Z. fold (count p) in Z. change (s_in (p_scanner p)) with (p_in p) in Z. destruct (scanRuneE p) as [[p' e]|] eqn:E; [|exact Logic.I]. destruct (rune_count _ _ _ Hs E) as (K1 & K2).
    destruct e; [cbn; lia|]. rewrite if_eof. destruct (eof_dec _) as [Ke|Ke]; [exact Logic.I|]. destruct (unscan p') as [p2|] eqn:E2; [|exact Logic.I].
    assert (K : p_scanner p2 = p_scanner p') by (unfold unscan in E2; destruct (_ <? _)%nat; [discriminate|now injection E2 as <-]).
    assert (En : forall n q, rsane (p_scanner q) -> (count p' <= count q)%nat -> counted p (endsE n q)).
    { intros n q Hq Hc. unfold endsE. pose proof (act_count2 _ (parseWhole n) (r_parseWhole n) q Hq) as J. destruct (runE _ q) as [a q'|q'|q'|]; cbn [counted]; auto.
      - pose proof (phi_le (p_scanner q')) as J'. fold (count q') in J'. change (s_in (p_scanner q')) with (p_in q') in J'. lia.
      - change (p_in (set_failed q' _)) with (p_in q'). lia. }
    unfold afterE. destruct (p_failed p2).
    - pose proof (skip_count (f p2) p2 ltac:(now rewrite K)) as J. assert (Kc : count p2 = count p') by (unfold count; now rewrite K). rewrite Kc in J. destruct (skipStmtE (f p2) p2) as [[[]|] q]; cbn [counted]; auto; try (now destruct J as []); try lia.
      apply En; [apply J|apply J].
    - apply En; cbn [set_failed p_scanner]; [now rewrite K|]. unfold count. cbn [set_failed p_scanner]. now rewrite K.
  Qed.

  (** ** Without failures *)
  Definition whole (p : parser) : Prop := rsane (p_scanner p) /\ text (p_in p).
  Lemma rune_same p : whole p -> scanRuneE p = scanRune p /\ forall p' e, scanRuneE p = Some (p', e) -> whole p'.
  Proof.
    intros (H & F). unfold scanRuneE, scanRune. destruct (p_unscanned p).
    - destruct (scan_clean HU (p_scanner p) (nth ((p_current p + 1) mod lookBackAmount) (p_lookBack p) c_zero) H F) as (s' & c' & -> & -> & K1 & K2 & _). split; [reflexivity|]. intros p' e [= <- _]. now split.
    - split; [reflexivity|]. intros p' e [= <- _]. now split.
  Qed.
  Lemma act_whole {A} (g : act A) : forall p, whole p -> match runE g p with Done _ q | Failed q => whole q | _ => True end.
  Proof.
    induction g as [a| | | |k IH|k IH|k IH|s k IH|i k IH|l k IH|k IH]; intros p W; cbn [runE]; try exact Logic.I; try exact W; try (now apply IH).
    - destruct (rune_same p W) as [_ K]. destruct (scanRuneE p) as [[p' [|]]|]; auto; [exact (K _ _ eq_refl)|]. apply IH. exact (K _ _ eq_refl).
    - unfold unscan. destruct (_ <? _)%nat; [exact Logic.I|]. now apply IH.
    - destruct (ID _ s false). now apply IH.
    - cbv zeta. apply IH. destruct W as [W1 W2]. split; [now apply reader_rsane|]. unfold p_in in *. cbn [p_scanner set_scanner]. rewrite reader_in. destruct (dropE_suffix (s_in (p_scanner p))) as [w Hw]. unfold text in *. rewrite Hw in W2. now apply Forall_app in W2.
  Qed.
  Definition whole_r (r : parsed) : Prop := match r with PStmt _ q | PErr q | PEOF q => whole q | _ => True end.
  Lemma skip_same n : forall p, whole p -> skipStmtE n p = skipStmt n p /\ whole (snd (skipStmtE n p)) /\ match fst (skipStmtE n p) with Some r => whole_r r | None => True end.
  Proof.
    induction n as [|n IH]; intros p W; [now split; [|split]|]. cbn [skipStmtE skipStmt]. destruct (rune_same p W) as [<- K]. destruct (scanRuneE p) as [[p' e]|]; [|now split; [|split]]. specialize (K _ _ eq_refl).
    destruct e; [now split; [|split]|]. specialize (IH p' K). destruct (p_tok p'); auto; now split; [|split].
  Qed.
  Lemma tree_same f p : whole p -> treeE f p = tree f p /\ whole_r (treeE f p).
  Proof.
    intros W. unfold treeE, tree. destruct (rune_same p W) as [<- K]. destruct (scanRuneE p) as [[p' e]|]; [|now split]. specialize (K _ _ eq_refl). destruct e; [now split|]. rewrite !if_eof. destruct (eof_dec _) as [Ke|Ke]; [now split|].
    destruct (unscan p') as [p2|] eqn:E2; [|now split].
    assert (W2 : whole p2) by (unfold unscan in E2; destruct (_ <? _)%nat; [discriminate|now injection E2 as <-]).
    assert (En : forall n q, whole q -> endsE n q = ends_ n q /\ whole_r (endsE n q)).
    { intros n q Hq. unfold endsE, ends_. rewrite <- (act_same HU (parseWhole n) q (proj1 Hq) (proj2 Hq)). split; [reflexivity|]. pose proof (act_whole (parseWhole n) q Hq) as J. now destruct (runE _ _). }
    unfold afterE, after. destruct (p_failed p2); [|now apply En]. destruct (skip_same (f p2) p2 W2) as (<- & J1 & J2). destruct (skipStmtE (f p2) p2) as [[r|] q]; [now split|]. apply En. exact J1.
  Qed.

  Lemma tree_isE p : ParseTreeE p = treeE parse_fuel p.
  Proof. unfold ParseTreeE, treeE. destruct (scanRuneE p) as [[p' [|]]|]; reflexivity. Qed.
  Lemma tree_is p : ParseTree p = tree parse_fuel p.
  Proof. unfold ParseTree, tree. destruct (scanRune p) as [[p' [|]]|]; reflexivity. Qed.

  Lemma fuel_ok q t : st q t -> (mu t < parse_fuel q)%nat.
  Proof. intros H. rewrite (fuel_is _ _ H). apply enough. Qed.
  Lemma parse_went p t : between p t -> went t (ParseTreeE p).
  Proof. intros H. rewrite tree_isE. apply (tree_went HU parse_fuel p t H). intros q t' Hq _. now apply fuel_ok. Qed.
  Lemma parse_bigE n p t : between p t -> (S (mu t) < n)%nat -> ParseTreeE p = treeE (fun _ => n) p.
  Proof.
    intros H Hn. assert (N1 : went t (treeE (fun _ => n) p)) by (apply (tree_went HU (fun _ => n) p t H); intros; lia). pose proof (parse_went p t H) as N2. rewrite tree_isE in *.
    rewrite <- (treeE_more parse_fuel (fun q => Nat.max (parse_fuel q) n) p); [|lia|intros Z; now rewrite Z in N2].
    apply treeE_more; [lia|]. intros Z. now rewrite Z in N1.
  Qed.
  Lemma parse_big n p t : between p t -> whole p -> (tree (fun _ => n) p <> PStuck) -> ParseTree p = tree (fun _ => n) p.
  Proof.
    intros H W N1. pose proof (parse_went p t H) as N2. rewrite tree_isE in N2. rewrite (proj1 (tree_same parse_fuel p W)) in N2. rewrite tree_is.
    rewrite <- (tree_more parse_fuel (fun q => Nat.max (parse_fuel q) n) p); [|lia|intros Z; now rewrite Z in N2].
    apply tree_more; [lia|exact N1].
  Qed.

  (** ** With one *)
  Definition p_swap (r : parsed) (l : list Z) : parsed :=
    match r with PStmt s q => PStmt s (instead q l) | PErr q => PErr (instead q l) | PEOF q => PEOF (instead q l) | r => r end.
  Definition p_left (r : parsed) (l : list Z) : Prop :=
    match r with PStmt _ q | PErr q | PEOF q => p_in q = l | _ => True end.
  Definition clean_tree (f : parser -> nat) (p : parser) (u m : list Z) : Prop :=
    exists v, text v /\ p_left (treeE f p) (v ++ tError :: m) /\ forall l, text l -> tree f (instead p (u ++ l)) = p_swap (treeE f p) (v ++ l).
  Definition told_tree (r : parsed) : Prop :=
    match r with PStmt s _ => copying s | PErr _ | PCrash => True | _ => False end.

  Lemma ends_cases n p t u m : st p t -> (length (t_ahead t) <= 2)%nat -> (mu t < n)%nat -> win t [] -> p_in p = u ++ tError :: m -> text u ->
    (exists v, text v /\ p_left (endsE n p) (v ++ tError :: m) /\ forall l, text l -> ends_ n (instead p (u ++ l)) = p_swap (endsE n p) (v ++ l)) \/ told_tree (endsE n p).
  Proof.
    intros HT Hu Hn HN E F. pose proof (act_total HU (fun _ => True) (mu t) (t_past t) (parseWhole n) p t [] (mu t) _ _ HT eq_refl (Forall_nil _) (le_n _) (w_parseWhole n [] _ _ Hu Hn) (q_parseWhole n) HN) as Z.
    destruct (act_cases HU (fun _ => True) (mu t) copying (t_past t) (parseWhole n) p t [] (mu t) _ _ u m HT eq_refl (Forall_nil _) (le_n _) (w_parseWhole n [] _ _ Hu Hn) (q_parseWhole n) HN (r_parseWhole n) E F) as [(v & V1 & V2 & V3)|K]; unfold endsE, ends_.
    - left. exists v. split; [exact V1|]. split; [now destruct (runE _ p)|]. intros l Fl. rewrite (V3 l Fl). now destruct (runE _ p).
    - right. destruct (runE _ p) as [a q|q|q|]; cbn [told_tree]; auto. destruct K as [K|K]; [exact K|]. now apply no_end_lost in K.
  Qed.

  Lemma back_instead p p' l : unscan p = Some p' -> unscan (instead p l) = Some (instead p' l).
  Proof. unfold unscan. cbn [instead set_scanner p_unscanned]. destruct (_ <? _)%nat; [discriminate|]. intros [= <-]. reflexivity. Qed.
  Lemma failed_instead p l b : set_failed (instead p l) b = instead (set_failed p b) l.
  Proof. reflexivity. Qed.

  Lemma tree_cases n p t u m : between p t -> (S (mu t) < n)%nat -> p_in p = u ++ tError :: m -> text u ->
    clean_tree (fun _ => n) p u m \/ told_tree (treeE (fun _ => n) p).
  Proof.
    intros (HT & Hu & Hl) Hn E F. unfold clean_tree. pose proof (tree_went HU (fun _ => n) p t (conj HT (conj Hu Hl)) ltac:(intros; lia)) as HW. revert HW. unfold treeE, tree.
    destruct (rune_cases HU 0%nat p t u m HT E F) as (p' & e & t' & c & S0 & S1 & S3 & S4 & S5 & S6 & S7 & S8 & S9 & S10). rewrite S0.
    assert (Hl' : lone t') by (destruct S9 as [(S9 & _)|(_ & S9 & _)]; [exact (lone_tail _ _ _ Hl S9)|unfold lone; rewrite S9; intros []]).
    destruct e.
    { intros _. right. exact Logic.I. }
    rewrite if_eof, S6. destruct (eof_dec (tok_of c)) as [Et|Et].
    { exfalso. assert (K : p_in p' = []) by (unfold p_in; replace (p_scanner p') with (t_scanner t') by (symmetry; apply S1); apply S1; rewrite S3; unfold toks; rewrite map_app; apply in_or_app; right; left; exact Et).
      destruct S10 as [(v & _ & V2 & _)|(_ & _ & [V|(_ & _ & V)])]; [rewrite K in V2; now destruct v|discriminate|]. apply V. rewrite S3. unfold toks. rewrite map_app. apply in_or_app. right. left. exact Et. }
    assert (Ew : weight (tok_of c) = 1%nat) by (destruct (tok_of c); try reflexivity; now elim Et).
    destruct (back p' t' c (t_past t) S1 ltac:(lia) S3 S8) as (p2 & E1 & HT2 & F2). rewrite E1. set (t2 := {| t_past := t_past t; t_ahead := c :: t_ahead t'; t_scanner := t_scanner t' |}) in *.
    assert (M2 : mu t2 = S (mu t')) by (rewrite !mu_is; cbn [t2 t_ahead t_scanner fold_right]; rewrite Ew; lia).
    assert (Hl2 : lone t2).
    { destruct S9 as [(S9 & _)|(_ & S9 & _)]; unfold lone, t2 in *; cbn [t_ahead]; [rewrite <- S9; exact Hl|]. rewrite S9. intros []. }
    assert (Hc : (p_current p' < 3)%nat) by apply S1. assert (Hu' : (p_unscanned p' < 3)%nat) by (destruct S1 as ((_ & -> & _) & _); lia).
    pose proof (window_first t t' c Hl S3 _ S9) as HN.
    pose proof (w_restOf n (tok_of c) (length (t_ahead t')) (mu t') S8 ltac:(lia) ltac:(lia)) as HW1. pose proof (@Forall_cons _ (fun c => fine true (tok_of c)) c [] S8 (Forall_nil _)) as HF1.
    intros HW. destruct S10 as [(v & V1 & V2 & V3)|(V0 & V2 & [V3|(V3 & V4 & V5)])]; [|discriminate|].
    - assert (V2' : p_in p2 = v ++ tError :: m).
      { rewrite <- V2. unfold p_in. f_equal. unfold unscan in E1. destruct (_ <? _)%nat; [discriminate|now injection E1 as <-]. }
      assert (Q : forall l, text l ->
        (match scanRune (instead p (u ++ l)) with
         | None => PStuck
         | Some (p, true) => PErr p
         | Some (p, false) => match p_tok p with KEOF => PEOF p | _ => match unscan p with None => PCrash | Some p => after (fun _ => n) p end end
         end) = after (fun _ => n) (instead p2 (v ++ l))).
      { intros l Fl. rewrite (V3 l Fl), if_eof. change (p_tok (instead p' (v ++ l))) with (p_tok p'). rewrite S6. destruct (eof_dec (tok_of c)); [contradiction|]. now rewrite (back_instead _ _ _ E1). }
      unfold afterE in *. destruct (p_failed p2) eqn:Ef.
      + pose proof (skip_total HU n p2 t2 HT2 Hl2 ltac:(lia)) as K0. destruct (skip_cases HU n p2 t2 v m HT2 Hl2 ltac:(lia) V2' V1) as [(w & W1 & W2)|J].
        2: { right. destruct (skipStmtE n p2) as [[[]|] q]; try contradiction. exact Logic.I. }
        destruct (skipStmtE n p2) as [[[]|] q] eqn:Es; try contradiction.
        * left. destruct W2 as [W2 W3]. exists w. split; [exact W1|]. split; [exact W2|]. intros l Fl. rewrite (Q l Fl). unfold after. change (p_failed (instead p2 (v ++ l))) with (p_failed p2). now rewrite Ef, (W3 l Fl).
        * destruct W2 as [W2 W3]. destruct K0 as (t3 & K1 & K2 & K3 & _). assert (HN3 : win t3 []) by (unfold win; rewrite K2; intros []).
          destruct (ends_cases n (set_failed q false) t3 w m (st_set _ _ false K1) ltac:(rewrite K2; cbn; lia) ltac:(lia) HN3 W2 W1) as [(x & X1 & X2 & X3)|J]; [left|right; exact J].
          exists x. split; [exact X1|]. split; [exact X2|]. intros l Fl. rewrite (Q l Fl). unfold after. change (p_failed (instead p2 (v ++ l))) with (p_failed p2). rewrite Ef, (W3 l Fl), failed_instead. now apply X3.
      + rewrite (set_same _ _ Ef) in *. unfold endsE in *. rewrite (whole_runE n p2 p' (unscan_scanE _ _ Hc E1) Hc Hu') in *. rewrite S6 in *.
        destruct (act_cases HU (fun _ => True) (mu t') copying (t_past t) (restOf n (tok_of c)) p' t' [c] (mu t') _ _ v m S1 S3 HF1 (le_n _) HW1 (q_restOf n (tok_of c)) HN (r_restOf n (tok_of c)) V2 V1) as [(w & W1 & W2 & W3)|K].
        * left. exists w. split; [exact W1|]. split; [now destruct (runE _ p')|]. intros l Fl. rewrite (Q l Fl). unfold after, ends_. change (p_failed (instead p2 (v ++ l))) with (p_failed p2). rewrite Ef, failed_instead, (set_same _ _ Ef).
          rewrite (run_whole [] true never n (instead p2 (v ++ l)) (instead p' (v ++ l)) (unscan_scan [] true never (instead p' (v ++ l)) (instead p2 (v ++ l)) Hc (back_instead _ _ _ E1)) Hc Hu').
          change (p_tok (instead p' (v ++ l))) with (p_tok p'). rewrite S6, (W3 l Fl). now destruct (runE _ p').
        * right. destruct (runE _ p') as [a q|q|q|]; cbn [told_tree]; auto; try contradiction. destruct K as [K|K]; [exact K|]. now apply no_end_lost in K.
    - right. unfold afterE in *. destruct (p_failed p2) eqn:Ef.
      + assert (K : is_err (skipStmtE n p2)).
        { apply (skip_pend HU n p2 t2 HT2 Hl2 ltac:(lia) V3). cbn [t2 t_ahead]. rewrite V0 in S5. destruct (t_ahead t'); [|discriminate]. constructor; [now split|constructor]. }
        destruct (skipStmtE n p2) as [[[]|] q]; try contradiction. exact Logic.I.
      + rewrite (set_same _ _ Ef) in *. unfold endsE in *. rewrite (whole_runE n p2 p' (unscan_scanE _ _ Hc E1) Hc Hu') in *. rewrite S6 in *.
        pose proof (act_total HU (fun _ => True) (mu t') (t_past t) (restOf n (tok_of c)) p' t' [c] (mu t') _ _ S1 S3 HF1 (le_n _) HW1 (q_restOf n (tok_of c)) HN) as Z.
        destruct (runE _ p') as [a q|q|q|]; cbn [told_tree]; auto; try contradiction.
        exfalso. destruct Z as (t4 & cs & m4 & Z1 & _ & Z3 & _ & _ & _ & Z7 & Z8 & Z9). destruct (Z9 V3) as [_ Z10].
        apply (no_end_lost (t_past t) a q). exists t4, cs, c, (t_past t). split; [exact Z1|]. split; [exact Z3|]. split; [exact Z7|]. split; [exact Z8|].
        assert (Ea : t_ahead t' = []) by (rewrite V0 in S5; now destruct (t_ahead t')). rewrite Z10, Ea, S3. split; [reflexivity|]. split; [exact V4|]. rewrite Ea, S3 in V5. exact V5.
  Qed.

  (** ** [Parse] *)
  Lemma whole_sane s : rsane s -> text (s_in s) -> sane s.
  Proof. intros (_ & K) F. split; [exact F|exact K]. Qed.
  Lemma sane_rsane s : sane s -> rsane s.
  Proof. intros (K1 & K2). split; [revert K1; apply Forall_impl; now right|exact K2]. Qed.
  Lemma between_instead p t u m l : between p t -> p_in p = u ++ tError :: m -> text u -> text l ->
    exists t', between (instead p (u ++ l)) t' /\ whole (instead p (u ++ l)).
  Proof.
    intros (HT & Hu & Hl) E F Fl. assert (Es : p_scanner p = t_scanner t) by apply HT. assert (R : rsane (p_scanner p)) by (rewrite Es; apply HT).
    assert (S0 : sane (with_in (p_scanner p) (u ++ l))) by (eapply rsane_sane; eassumption). pose proof (sane_rsane _ S0) as S1.
    exists (t_set t (with_in (p_scanner p) (u ++ l))). split; [|split; [exact S1|exact (proj1 S0)]]. split; [|split; [exact Hu|exact Hl]]. apply set_s; [exact HT|exact S1|]. rewrite <- Es. intros K. unfold p_in in E. rewrite K in E. now destruct u.
  Qed.

  Lemma parse_cases p t u m : between p t -> p_in p = u ++ tError :: m -> text u ->
    (exists v, text v /\ p_left (ParseTreeE p) (v ++ tError :: m) /\ forall l, text l -> ParseTree (instead p (u ++ l)) = p_swap (ParseTreeE p) (v ++ l)) \/ told_tree (ParseTreeE p).
  Proof.
    intros H E F. pose proof (parse_went p t H) as W. rewrite (parse_bigE (S (S (mu t))) p t H (le_n _)) in *.
    destruct (tree_cases (S (S (mu t))) p t u m H (le_n _) E F) as [(v & V1 & V2 & V3)|J]; [left|now right].
    exists v. split; [exact V1|]. split; [exact V2|]. intros l Fl. rewrite <- (V3 l Fl). destruct (between_instead p t u m l H E F Fl) as (t' & B1 & B2). apply (parse_big _ _ t' B1 B2).
    rewrite (V3 l Fl). destruct (treeE _ p); try discriminate. exact (fun _ => W).
  Qed.

  Lemma copying_deref b s : copying s -> copying (option_map (deref_stmt b) s).
  Proof. intros (tn & cols & line & delim & ->). cbn. unfold copying. eauto. Qed.

  Lemma parse_told p t u m : between p t -> p_in p = u ++ tError :: m -> text u -> unreached p u m (ParseE p) \/ reached m (ParseE p).
  Proof.
    intros H E F. pose proof (parse_went p t H) as W. assert (R : rsane (p_scanner p)) by (destruct H as (((-> & _) & H & _) & _); exact H).
    pose proof (tree_count parse_fuel p R) as C. rewrite <- tree_isE in C. rewrite E in C || (unfold counted in C; rewrite E in C). rewrite ?(fails_app _ _ F) in C. unfold ParseE, Parse.
    destruct (parse_cases p t u m H E F) as [(v & V1 & V2 & V3)|J].
    - left. unfold Parse. destruct (ParseTreeE p) as [s q|q|q| |]; cbn [unreached p_left p_swap] in *; try contradiction.
      + exists v. split; [exact V1|]. split; [exact V2|]. intros l Fl. unfold Parse; now rewrite (V3 l Fl).
      + exists v. split; [exact V1|]. split; [exact V2|]. intros l Fl. unfold Parse; now rewrite (V3 l Fl).
      + destruct W as (t' & _ & W). rewrite W in V2. now destruct v.
      + intros l Fl. unfold Parse; now rewrite (V3 l Fl).
    - right. destruct (ParseTreeE p) as [s q|q|q| |]; cbn [reached told_tree counted] in *; auto.
      + split; [now apply copying_deref|]. lia.
      + lia.
  Qed.
End Told.
