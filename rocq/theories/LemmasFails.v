(** The parser with a reader that may fail: one step, and the actions. *)

From Verif Require Import ModelParserReader SpecParser SpecReader SpecFails LemmasBase LemmasScanner LemmasScanAll LemmasScanProps LemmasParserWp LemmasParserRun LemmasParser LemmasParserEnds LemmasReader LemmasCopyOnly.

Lemma put_length {A} n (a : A) l : length (set_nth n a l) = length l.
Proof. revert n; induction l as [|x l IH]; intros [|n]; cbn; auto. Qed.
Lemma put_same {A} n (a d : A) l : (n < length l)%nat -> nth n (set_nth n a l) d = a.
Proof. revert n; induction l as [|x l IH]; intros [|n] H; cbn in *; try lia; auto. apply IH; lia. Qed.
Lemma put_other {A} n k (a d : A) l : n <> k -> nth k (set_nth n a l) d = nth k l d.
Proof. revert n k; induction l as [|x l IH]; intros [|n] [|k] H; cbn; auto; try congruence. Qed.
Lemma below_three k : (k < 3)%nat -> k = 0%nat \/ k = 1%nat \/ k = 2%nat.
Proof. lia. Qed.

Section Step.
  Context {X : FloatLib} {L : CaseLib} {U : RuneLib} {B : BufLib} {P : PrintLib} (HU : RuneLib_scan U).

  Notation ok_tok := (fun c => fine true (tok_of c)).

  (** ** One token *)
  Lemma order_sane s c s' c' : sane s -> Scan s c = Some (s', c') ->
    sane s' /\ exists w, rest s = w ++ rest s' /\ (c_token c' <> -1 -> w <> []) /\ (c_token c' = -1 -> rest s' = []).
  Proof.
    intros H E. destruct (Scan_any HU s c H) as (s1 & c1 & u1 & E1 & H1 & [w Hw] & R). rewrite E1 in E. injection E as <- <-. split; [exact (proj1 H1)|].
    exists w. split; [exact Hw|]. destruct R as [(T & R1 & _)|[(T & _ & Hl & _)|(g & w' & f & v & R1 & R2 & R3 & R4)]].
    - split; [intros N; now elim N|]. intros _. exact R1.
    - split; [|rewrite T; discriminate]. intros _ ->. cbn in Hw. rewrite Hw in Hl. lia.
    - assert (R4' : holds (s_ids s) v s1 c1) by now destruct c1. destruct (lexeme_holds_token _ _ _ _ _ _ _ R3 R4') as (N1 & N2 & N3).
      split; [|intros T; now elim N1]. intros _ ->. cbn in Hw. rewrite <- Hw in R3. apply lexeme_suffix, suffix_length in R3. rewrite R1, !app_length in R3. destruct w'; [contradiction|cbn in R3; lia].
  Qed.

  Lemma rest_with s l : length (rest (with_in s l)) = (length (rest s) - length (s_in s) + length l)%nat.
  Proof. unfold rest. cbn [with_in s_in s_unread s_read]. rewrite !app_length. lia. Qed.
  Lemma rest_in s : (length (s_in s) <= length (rest s) <= S (length (s_in s)))%nat.
  Proof. unfold rest. rewrite app_length. destruct (s_unread s); [destruct (s_read s <? 0)|]; cbn [length]; lia. Qed.
  Lemma weight_eof c : c_token c = -1 -> weight (tok_of c) = 0%nat.
  Proof. intros E. now rewrite (proj2 (tok_eof c) E). Qed.
  Lemma weight_le k : (weight k <= 1)%nat.
  Proof. destruct k; cbn; lia. Qed.

  Definition clean_scan (s : scanner) (c : sctx) (u m : list Z) (s' : scanner) (c' : sctx) : Prop :=
    exists v, text v /\ s_in s' = v ++ tError :: m /\ forall t, text t -> Scan (with_in s (u ++ t)) c = Some (with_in s' (v ++ t), c').
  Definition pend (s : scanner) : Prop := s_unread s = true /\ s_read s = 0.
  Definition hit_scan (m : list Z) (s' : scanner) (c' : sctx) : Prop :=
    s_in s' = m /\ (tok_of c' = KError true \/ (pend s' /\ tok_of c' <> KEnd /\ tok_of c' <> KEOF)).

  Lemma error_tok c e : c_token c = tError -> c_error c = Some e -> tok_of c = KError true.
  Proof. intros E1 E2. unfold tok_of. rewrite E1, E2. reflexivity. Qed.
  Lemma untold_rune s k : untold_token s k -> k <> -1 /\ k <> -2.
  Proof.
    intros [->|[->|[H|([->| ->] & _)]]]; try (now split). unfold op_rune in H. split; intros ->; cbn in H; intuition discriminate.
  Qed.
  Lemma tok_end c : tok_of c = KEnd -> c_token c = -2.
  Proof. unfold tok_of. repeat match goal with |- (if ?a =? ?b then _ else _) = _ -> _ => destruct (Z.eqb_spec a b); [try discriminate; auto|] end. discriminate. Qed.

  Lemma scan_cases s c u m : rsane s -> s_in s = u ++ tError :: m -> text u ->
    exists s' c', ScanE s c = Some (s', c') /\ rsane s' /\ (length (rest s') + weight (tok_of c') <= length (rest s))%nat /\ tok_of c' <> KEOF /\
      (clean_scan s c u m s' c' \/ hit_scan m s' c').
  Proof.
    intros Hs E F. destruct (ScanE_cases HU s c u m Hs E F) as (s' & c' & E1 & Hs' & Hc). exists s', c'. split; [exact E1|]. split; [exact Hs'|].
    assert (Len : (length (rest s) = length (rest (with_in s u)) + S (length m))%nat).
    { rewrite rest_with. pose proof (rest_in s) as [H1 _]. rewrite E, app_length in *. cbn [length] in *. lia. }
    assert (Sane : forall t, text t -> sane (with_in s (u ++ t))) by (intros t Ft; eapply rsane_sane; eassumption).
    destruct Hc as [(v & E2 & Sim)|(E2 & Hc)].
    - pose proof (Sim [] ltac:(constructor)) as K0. destruct (order_sane _ _ _ _ (Sane [] ltac:(constructor)) K0) as (Sv & w & Hw & N1 & _). rewrite !app_nil_r in *.
      pose proof (Sim [65] ltac:(constructor; [lia|constructor])) as K1. destruct (order_sane _ _ _ _ (Sane [65] ltac:(constructor; [lia|constructor])) K1) as (_ & w1 & _ & _ & N2).
      assert (Ne : c_token c' <> -1). { intros T. specialize (N2 T). apply (f_equal (@length Z)) in N2. rewrite rest_with, app_length in N2. cbn in N2. lia. }
      split; [|split; [intros T; apply tok_eof in T; congruence|left; exists v; split; [exact (proj1 Sv)|now split]]].
      specialize (N1 Ne). apply (f_equal (@length Z)) in Hw. rewrite app_length in Hw. rewrite (rest_with s') in Hw. pose proof (rest_in s') as [J _]. rewrite E2, app_length in *. cbn [length] in *.
      pose proof (weight_le (tok_of c')). destruct w; [contradiction|]. cbn [length] in Hw. lia.
    - pose proof (Sane [] ltac:(constructor)) as S0. rewrite app_nil_r in S0. pose proof (rest_in s') as J. pose proof (weight_le (tok_of c')) as Jw. rewrite E2 in J.
      destruct Hc as [(T1 & T2 & T3)|[(T1 & T2 & T3 & s0 & c0 & T4 & T5)|(T1 & T2 & s0 & T3)]].
      + pose proof (error_tok _ _ T1 T2) as T. split; [|split; [rewrite T; discriminate|right; split; auto]].
        unfold rest at 1. rewrite T3, E2. cbn [app]. lia.
      + destruct (untold_rune _ _ T1) as [U1 U2]. assert (Et : c_token c0 = c_token c') by (rewrite T5; reflexivity).
        destruct (order_sane _ _ _ _ S0 T4) as (_ & w & Hw & N1 & _). rewrite Et in N1. specialize (N1 U1). apply (f_equal (@length Z)) in Hw. rewrite app_length in Hw. destruct w; [contradiction|]. cbn [length] in Hw.
        split; [lia|]. assert (T6 : tok_of c' <> KEOF) by (intros T; apply tok_eof in T; congruence). split; [exact T6|]. right. split; [exact E2|]. right. split; [now split|]. split; [intros T; apply tok_end in T; congruence|exact T6].
      + pose proof (error_tok _ _ T1 T2) as T. destruct (order_sane _ _ _ _ S0 T3) as (_ & w & Hw & N1 & _). rewrite T1 in N1. specialize (N1 ltac:(discriminate)). apply (f_equal (@length Z)) in Hw. rewrite app_length in Hw. destruct w; [contradiction|]. cbn [length] in Hw.
        split; [lia|]. split; [rewrite T; discriminate|]. right. split; auto.
  Qed.

  Lemma scan_clean s c : rsane s -> text (s_in s) ->
    exists s' c', ScanE s c = Some (s', c') /\ Scan s c = Some (s', c') /\ rsane s' /\ text (s_in s') /\ (length (rest s') + weight (tok_of c') <= length (rest s))%nat /\ (tok_of c' = KEOF \/ s_in s = [] -> s_in s' = []).
  Proof.
    intros Hs F. rewrite (ScanE_whole HU s c Hs F). assert (S0 : sane s) by (destruct Hs as (_ & K); split; [exact F|exact K]).
    destruct (Scan_any HU s c S0) as (s' & c' & _ & E & _). exists s', c'. split; [exact E|]. split; [exact E|]. destruct (order_sane _ _ _ _ S0 E) as (Sv & w & Hw & N1 & N2).
    split; [destruct Sv as (K1 & K2); split; [revert K1; apply Forall_impl; now right|exact K2]|]. split; [exact (proj1 Sv)|]. split.
    - apply (f_equal (@length Z)) in Hw. rewrite app_length in Hw. destruct (Z.eq_dec (c_token c') (-1)) as [T|T]; [rewrite (weight_eof _ T); lia|]. specialize (N1 T). pose proof (weight_le (tok_of c')). destruct w; [contradiction|]. cbn [length] in Hw. lia.
    - intros T. assert (K : rest s' = [] -> s_in s' = []) by (unfold rest; intros K; now apply app_eq_nil in K). destruct (Z.eq_dec (c_token c') (-1)) as [T'|T']; [now apply K, N2|].
      destruct T as [T|T]; [now apply tok_eof in T|]. apply K. specialize (N1 T'). pose proof (rest_in s) as [_ J]. rewrite T in J. apply (f_equal (@length Z)) in Hw. rewrite app_length in Hw. destruct w; [contradiction|]. destruct (rest s'); [reflexivity|]. cbn [length] in *. lia.
  Qed.

  Lemma scan_total s c : rsane s ->
    exists s' c', ScanE s c = Some (s', c') /\ rsane s' /\ (length (rest s') + weight (tok_of c') <= length (rest s))%nat /\ (tok_of c' = KEOF \/ s_in s = [] -> s_in s' = []).
  Proof.
    intros Hs. destruct (item_split _ (proj1 Hs)) as [F|(u & m & E & F & _)].
    - destruct (scan_clean s c Hs F) as (s' & c' & E & _ & K1 & _ & K2 & K3). now exists s', c'.
    - destruct (scan_cases s c u m Hs E F) as (s' & c' & E1 & K1 & K2 & K3 & _). exists s', c'. repeat (split; [assumption|]). intros [T|T]; [now elim K3|]. rewrite T in E. now destruct u.
  Qed.

  Lemma scan_pend s c : pend s -> exists s' c', ScanE s c = Some (s', c') /\ tok_of c' = KError true /\ s_in s' = s_in s.
  Proof. intros [H1 H2]. destruct (read_behind HU s c H1 H2) as (s' & c' & E & T1 & T2 & T3). exists s', c'. split; [exact E|]. split; [exact (error_tok _ _ T1 T2)|exact T3]. Qed.

  (** ** The ring and the tape *)
  Definition toks (l : list sctx) : list tok := map tok_of l.
  Definition st (p : parser) (t : tape) : Prop :=
    on_tape p t /\ rsane (t_scanner t) /\ Forall ok_tok (t_ahead t) /\ (In KEOF (toks (t_ahead t ++ t_past t)) -> s_in (t_scanner t) = []).

  Lemma mu_is t : mu t = (fold_right (fun c n => weight (tok_of c) + n) 0 (t_ahead t) + length (rest (t_scanner t)))%nat.
  Proof. unfold mu, left_over. f_equal. induction (t_ahead t) as [|c l IH]; [reflexivity|]. cbn. destruct (tok_of c); cbn; lia. Qed.

  Lemma tape_tok p t : on_tape p t -> (length (t_ahead t) < 3)%nat -> p_tok p = t_tok t.
  Proof.
    intros (H1 & H2 & H3 & H4 & H5 & H6) H7. unfold p_tok, t_tok, p_sctx. f_equal. specialize (H6 (length (t_ahead t)) H7).
    rewrite H2 in H6. replace (p_current p + length (t_ahead t) + 3 - length (t_ahead t))%nat with (p_current p + 1 * 3)%nat in H6 by lia.
    rewrite Nat.mod_add, Nat.mod_small in H6 by lia. rewrite H6. rewrite app_nth2; rewrite rev_length; [|lia]. rewrite Nat.sub_diag. now destruct (t_past t).
  Qed.

  Definition moved (t t' : tape) (c : sctx) (e : bool) : Prop :=
    (t_ahead t = c :: t_ahead t' /\ t_scanner t' = t_scanner t /\ e = false) \/
    (t_ahead t = [] /\ t_ahead t' = [] /\ ScanE (t_scanner t) (nth 2 (t_past t) c_zero) = Some (t_scanner t', c)).

  Lemma step p t : st p t ->
    exists p' e t' c, scanRuneE p = Some (p', e) /\ st p' t' /\ t_past t' = c :: t_past t /\ p_failed p' = p_failed p /\
      length (t_ahead t') = pred (length (t_ahead t)) /\ p_tok p' = tok_of c /\ (mu t' + weight (tok_of c) <= mu t)%nat /\
      (if e then tok_of c = KError true else fine true (tok_of c)) /\ moved t t' c e.
  Proof.
    intros (HO & HS & HF & HE). pose proof HO as (H1 & H2 & H3 & H4 & H5 & H6). unfold scanRuneE. change lookBackAmount with 3%nat.
    destruct (t_ahead t) as [|c ahead] eqn:Ea.
    - cbn [length] in H2. rewrite H2, H1.
      replace (nth ((p_current p + 1) mod 3) (p_lookBack p) c_zero) with (nth 2 (t_past t) c_zero).
      2: { specialize (H6 2%nat ltac:(lia)). rewrite H2 in H6. cbn [rev app] in H6. rewrite <- H6. f_equal. f_equal. lia. }
      destruct (scan_total _ (nth 2 (t_past t) c_zero) HS) as (s' & c' & E & K1 & K2 & K3). rewrite E.
      assert (Ec : ((p_current p + 1) mod 3 < 3)%nat) by (apply Nat.mod_upper_bound; lia).
      assert (HO' : on_tape {| p_scanner := s'; p_lookBack := set_nth ((p_current p + 1) mod 3) c' (p_lookBack p); p_current := (p_current p + 1) mod 3; p_unscanned := 0; p_failed := p_failed p |}
        {| t_past := c' :: t_past t; t_ahead := []; t_scanner := s' |}).
      { unfold on_tape. cbn [p_scanner t_scanner p_unscanned t_ahead length p_lookBack p_current t_past rev app]. split; [reflexivity|]. split; [reflexivity|]. split; [lia|].
        split; [now rewrite put_length|]. split; [exact Ec|]. intros k Hk. destruct k as [|k].
        - rewrite Nat.sub_0_r. rewrite <- Nat.add_mod_idemp_r, Nat.mod_same, !Nat.add_0_r by lia. rewrite Nat.mod_mod by lia. rewrite put_same by lia. reflexivity.
        - specialize (H6 k ltac:(lia)). rewrite H2 in H6. cbn [rev app] in H6. cbn [nth]. rewrite <- H6, put_other.
          + f_equal. apply below_three in H5. destruct H5 as [->|[->| ->]]; assert (k = 0 \/ k = 1)%nat as [->| ->] by lia; reflexivity.
          + apply below_three in H5. destruct H5 as [->|[->| ->]]; assert (k = 0 \/ k = 1)%nat as [->| ->] by lia; cbn; lia. }
      eexists _, _, _, c'. split; [reflexivity|]. split.
      { split; [exact HO'|]. split; [exact K1|]. split; [constructor|]. cbn [t_ahead t_past t_scanner app toks map]. intros [T|T]; apply K3; [now left|right]. now apply HE. }
      split; [reflexivity|]. split; [reflexivity|]. split; [reflexivity|]. split; [rewrite (tape_tok _ _ HO') by (cbn; lia); reflexivity|].
      split; [rewrite !mu_is, Ea; cbn [t_ahead t_scanner fold_right]; lia|]. split; [|right; now rewrite Ea].
      destruct (tok_of c') as [| |[|]| | | | | | | |]; try reflexivity; split; discriminate.
    - cbn [length] in H2. rewrite H2. inversion HF as [|? ? F1 F2]; subst. assert (Ec : ((p_current p + 1) mod 3 < 3)%nat) by (apply Nat.mod_upper_bound; lia).
      assert (HO' : on_tape {| p_scanner := p_scanner p; p_lookBack := p_lookBack p; p_current := (p_current p + 1) mod 3; p_unscanned := length ahead; p_failed := p_failed p |}
        {| t_past := c :: t_past t; t_ahead := ahead; t_scanner := t_scanner t |}).
      { unfold on_tape. cbn [p_scanner t_scanner p_unscanned t_ahead length p_lookBack p_current t_past] in *. split; [exact H1|]. split; [reflexivity|]. split; [lia|]. split; [exact H4|].
        split; [exact Ec|]. intros k Hk. specialize (H6 k Hk). cbn [rev] in H6. rewrite <- app_assoc in H6. cbn [app] in H6. rewrite <- H6. f_equal. rewrite H2.
        replace (p_current p + S (length ahead) + 3 - k)%nat with (p_current p + 1 + (length ahead + 3 - k))%nat by lia.
        replace ((p_current p + 1) mod 3 + length ahead + 3 - k)%nat with ((p_current p + 1) mod 3 + (length ahead + 3 - k))%nat by lia.
        now rewrite Nat.add_mod_idemp_l by lia. }
      eexists _, _, _, c. split; [reflexivity|]. split.
      { split; [exact HO'|]. split; [exact HS|]. split; [exact F2|]. intros T. apply HE. unfold toks in *. cbn [t_ahead t_past] in T. rewrite map_app in *. cbn [map app] in *. apply in_app_or in T. cbn [In] in T. cbn [In]. rewrite in_app_iff. tauto. }
      split; [reflexivity|]. split; [reflexivity|]. split; [reflexivity|]. split; [rewrite (tape_tok _ _ HO') by (cbn in *; lia); reflexivity|].
      split; [rewrite !mu_is, Ea; cbn; lia|]. split; [exact F1|]. left. now rewrite Ea.
  Qed.

  Lemma back p t c past : st p t -> (length (t_ahead t) < 3)%nat -> t_past t = c :: past -> fine true (tok_of c) ->
    exists p', unscan p = Some p' /\ st p' {| t_past := past; t_ahead := c :: t_ahead t; t_scanner := t_scanner t |} /\ p_failed p' = p_failed p.
  Proof.
    intros (HO & HS & HF & HE) Hu Ep Hc. pose proof HO as (H1 & H2 & H3 & H4 & H5 & H6). unfold unscan. change lookBackAmount with 3%nat. replace (3 <? S (p_unscanned p))%nat with false by (symmetry; apply Nat.ltb_ge; lia).
    eexists. split; [reflexivity|]. split; [|reflexivity]. split; [|split; [exact HS|split; [constructor; assumption|]]].
    2: { intros T. apply HE. rewrite Ep. unfold toks in *. cbn [t_ahead t_past] in T. rewrite map_app in *. cbn [map app In] in *. rewrite in_app_iff in *. cbn [In]. tauto. }
    unfold on_tape. cbn [p_scanner t_scanner p_unscanned t_ahead length p_lookBack p_current t_past]. split; [exact H1|]. split; [lia|]. split; [lia|]. split; [exact H4|].
    split; [destruct (p_current p); lia|]. intros k Hk. specialize (H6 k Hk). cbn [rev]. rewrite <- app_assoc. cbn [app]. rewrite <- Ep, <- H6. f_equal.
    destruct (p_current p) as [|cu]; [|f_equal; lia]. replace (3 - 1 + S (p_unscanned p) + 3 - k)%nat with (0 + p_unscanned p + 3 - k + 1 * 3)%nat by lia. now rewrite Nat.mod_add by lia.
  Qed.

  Lemma set_s p t s : st p t -> rsane s -> (s_in (t_scanner t) = [] -> s_in s = []) -> st (set_scanner p s) (t_set t s).
  Proof. intros ((H1 & H2 & H3 & H4 & H5 & H6) & HS & HF & HE) H K. split; [|split; [exact H|split; [exact HF|intros T; apply K, HE, T]]]. unfold on_tape. cbn. auto 10. Qed.

  (** ** The reader of COPY *)
  Lemma dropE_suffix l : exists w, l = w ++ fst (dropLineE l).
  Proof. induction l as [|r l [w IH]]; [now exists []|]. cbn [dropLineE]. destruct (r =? tError); [now exists [r]|]. destruct (r =? 10); [now exists [r]|]. exists (r :: w). cbn [app]. now rewrite <- IH. Qed.
  Lemma drop_clean u m : text u -> (exists v, text v /\ fst (dropLineE (u ++ tError :: m)) = v ++ tError :: m /\ snd (dropLineE (u ++ tError :: m)) = true /\
      forall t, dropLine (u ++ t) = (v ++ t, true)) \/ fst (dropLineE (u ++ tError :: m)) = m.
  Proof.
    induction 1 as [|r u Hr Hu IH]; [now right|]. cbn [app dropLineE dropLine]. replace (r =? tError) with false by (symmetry; apply Z.eqb_neq; lia).
    destruct (r =? 10); [left; exists u; repeat split; assumption || reflexivity|]. exact IH.
  Qed.
  Lemma drop_same u : text u -> dropLineE u = dropLine u.
  Proof. induction 1 as [|r u Hr Hu IH]; [reflexivity|]. cbn [dropLineE dropLine]. replace (r =? tError) with false by (symmetry; apply Z.eqb_neq; lia). now rewrite IH. Qed.
  Lemma reader_in s : s_in (RuneReaderE s) = fst (dropLineE (s_in s)).
  Proof. unfold RuneReaderE. now destruct (dropLineE (s_in s)). Qed.
  Lemma reader_rsane s : rsane s -> rsane (RuneReaderE s).
  Proof.
    intros (H1 & H2 & H3). destruct (dropE_suffix (s_in s)) as [w Hw]. split; [rewrite reader_in; rewrite Hw in H1; now apply Forall_app in H1|]. split; [unfold RuneReaderE; now destruct (dropLineE (s_in s))|].
    intros K1 K2. assert (K : s_unread (RuneReaderE s) = s_unread s /\ s_read (RuneReaderE s) = s_read s) by (unfold RuneReaderE; now destruct (dropLineE (s_in s))). destruct K as [Ka Kb]. rewrite Ka in K1. rewrite Kb in K2 |- *.
    destruct (H3 K1 K2) as [K3 K4]. split; [exact K3|]. rewrite reader_in, K4. reflexivity.
  Qed.
  Lemma reader_rest s : (length (rest (RuneReaderE s)) <= length (rest s))%nat.
  Proof.
    unfold rest at 1. rewrite reader_in. assert (K : s_unread (RuneReaderE s) = s_unread s /\ s_read (RuneReaderE s) = s_read s) by (unfold RuneReaderE; now destruct (dropLineE (s_in s))). destruct K as [-> ->].
    unfold rest. destruct (dropE_suffix (s_in s)) as [w Hw]. rewrite !app_length. rewrite Hw at 2. rewrite app_length. lia.
  Qed.
  Lemma reader_pend s : pend s -> pend (RuneReaderE s).
  Proof. unfold pend, RuneReaderE. now destruct (dropLineE (s_in s)). Qed.
  Lemma reader_same s : text (s_in s) -> RuneReaderE s = RuneReader s.
  Proof. intros F. unfold RuneReaderE, RuneReader. now rewrite drop_same. Qed.

  (** ** What is between two calls *)
  Lemma tl_app {A} (l l' : list A) : l <> [] -> tl (l ++ l') = tl l ++ l'.
  Proof. now destruct l. Qed.
  Definition win (t : tape) (cs : list sctx) : Prop := noend (tl (toks (rev (t_ahead t) ++ cs))).
  Definition lone (t : tape) : Prop := ~ In KEnd (tl (toks (rev (t_ahead t)))).
  Lemma win_lone t cs : cs <> [] -> win t cs -> lone t.
  Proof.
    unfold win, lone, toks. intros Hc H. destruct (rev (t_ahead t)) as [|a l]; [intros []|]. cbn [app map tl] in *. intros K. apply H. rewrite map_app, removelast_app.
    - apply in_or_app. now left.
    - destruct cs; [contradiction|discriminate].
  Qed.
  Lemma lone_win t c : lone t -> win {| t_past := t_past t; t_ahead := c :: t_ahead t; t_scanner := t_scanner t |} [].
  Proof.
    unfold win, lone, toks. cbn [t_ahead rev]. rewrite app_nil_r. intros H. destruct (rev (t_ahead t)) as [|a l]; [intros []|]. cbn [app map tl] in *. rewrite map_app. unfold noend. cbn [map]. now rewrite removelast_last.
  Qed.
  Lemma lone_tail t t' c : lone t -> t_ahead t = c :: t_ahead t' -> lone t'.
  Proof.
    unfold lone, toks. intros H E K. apply H. rewrite E. cbn [rev]. destruct (rev (t_ahead t')) as [|a l]; [destruct K|]. cbn [app map tl] in *. rewrite map_app. apply in_or_app. now left.
  Qed.
  Lemma lone_end t t' c : lone t -> t_ahead t = c :: t_ahead t' -> tok_of c = KEnd -> t_ahead t' = [].
  Proof.
    unfold lone, toks. intros H E K. destruct (t_ahead t') as [|a l]; [reflexivity|]. exfalso. apply H. rewrite E. cbn [rev]. rewrite !map_app. rewrite tl_app; [apply in_or_app; right; cbn; auto|]. destruct (rev l); discriminate.
  Qed.

  (** ** The actions *)
  Variable C : list tok -> Prop.
  Variable M : nat.

  Definition kept (t t' : tape) : Prop :=
    pend (t_scanner t) -> pend (t_scanner t') /\ rev (t_ahead t') ++ t_past t' = rev (t_ahead t) ++ t_past t.
  Lemma kept_trans t t' t'' : kept t t' -> kept t' t'' -> kept t t''.
  Proof. intros H1 H2 K. destruct (H1 K) as [K1 K2]. destruct (H2 K1) as [K3 K4]. split; [exact K3|congruence]. Qed.

  Lemma act_total {A} (base : list sctx) (g : act A) : forall p t cs m (Q : list tok -> nat -> nat -> A -> Prop) (Q2 : list tok -> A -> Prop),
    st p t -> t_past t = cs ++ base -> Forall ok_tok cs -> (mu t <= m)%nat ->
    wp true C M (toks cs) (length (t_ahead t)) m g Q -> qp (toks cs) g Q2 -> win t cs ->
    match runE g p with
    | Done a p' => exists t' cs' m', st p' t' /\ p_failed p' = p_failed p /\ t_past t' = cs' ++ base /\ Forall ok_tok cs' /\ (mu t' <= m')%nat /\
        Q (toks cs') (length (t_ahead t')) m' a /\ Q2 (toks cs') a /\ win t' cs' /\ kept t t'
    | Failed p' => exists t', st p' t' /\ p_failed p' = p_failed p /\ (length (t_ahead t') < 3)%nat /\ (mu t' <= M)%nat /\ lone t'
    | Crashed _ => True
    | Stuck => False
    end.
  Proof.
    induction g as [a| | | |k IH|k IH|k IH|s k IH|i k IH|l k IH|k IH]; intros p t cs m Q Q2 HT Ep Hc Hm HW HQ HN; cbn [runE]; cbn [wp] in HW; cbn [qp] in HQ.
    - exists t, cs, m. do 8 (split; [solve [auto]|]). intros K. now split.
    - exists t. split; [exact HT|]. split; [reflexivity|]. split; [lia|]. split; [lia|]. apply (win_lone t cs); [|exact HN]. destruct HQ as [HQ _]. intros ->. now apply HQ.
    - exact Logic.I.
    - exact HW.
    - destruct HW as (W1 & W2 & W3). destruct HQ as [HQ1 HQ2]. destruct (step p t HT) as (p' & e & t' & c & S0 & S1 & S3 & S4 & S5 & S6 & S7 & S8 & S9). rewrite S0. destruct e.
      + exists t'. split; [exact S1|]. split; [exact S4|]. split; [destruct HT as ((_ & _ & HT & _) & _); lia|]. rewrite S8 in S7. cbn in S7. split; [lia|].
        destruct S9 as [(_ & _ & ?)|(_ & S9 & _)]; [discriminate|]. unfold lone. rewrite S9. intros [].
      + rewrite S6. assert (K : kept t t').
        { intros K. destruct S9 as [(S9 & S10 & _)|(S9 & S10 & S11)].
          - rewrite S10, S9, S3. split; [exact K|]. cbn [rev]. now rewrite <- app_assoc.
          - destruct (scan_pend (t_scanner t) (nth 2 (t_past t) c_zero) K) as (s1 & c1 & J1 & J2 & _). rewrite J1 in S11. injection S11 as _ <-. destruct S8 as [S8 _]. now elim S8. }
        assert (N : win t' (c :: cs)).
        { unfold win in *. destruct S9 as [(S9 & _)|(S9 & S10 & _)]; [rewrite S9 in HN; cbn [rev] in HN; now rewrite <- app_assoc in HN|]. rewrite S10. exact HQ1. }
        assert (D : tok_of c = KEOF \/ tok_of c <> KEOF) by (destruct (tok_of c); auto; right; discriminate).
        assert (I : exists m', (mu t' <= m')%nat /\ wp true C M (toks (c :: cs)) (length (t_ahead t')) m' (k (tok_of c)) Q).
        { destruct D as [D|D].
          - exists m. split; [lia|]. rewrite S5. cbn [toks map]. rewrite D. exact W2.
          - assert (Ew : weight (tok_of c) = 1%nat) by (destruct (tok_of c); try reflexivity; now elim D). exists (pred m). split; [lia|]. rewrite S5. cbn [toks map]. apply W3; [exact S8|exact D|lia]. }
        destruct I as (m' & I1 & I2).
        specialize (IH (tok_of c) p' t' (c :: cs) m' Q Q2 S1 ltac:(now rewrite S3, Ep) ltac:(now constructor) I1 I2 (HQ2 (tok_of c)) N). rewrite <- S4.
        destruct (runE _ p') as [a q|q|q|]; try exact IH. destruct IH as (t2 & cs2 & m2 & J1 & J2 & J3 & J4 & J5 & J6 & J7 & J8 & J9). exists t2, cs2, m2. do 8 (split; [assumption|]). exact (kept_trans _ _ _ K J9).
    - destruct HW as [W1 W2]. destruct cs as [|c cs]; [contradiction|]. cbn [toks map] in W2, HQ. inversion Hc as [|? ? C1 C2]; subst.
      destruct (back p t c (cs ++ base) HT W1 Ep C1) as (p' & E1 & S1 & S2). rewrite E1.
      specialize (IH p' _ cs (m + weight (tok_of c))%nat Q Q2 S1 eq_refl C2). rewrite S2 in IH.
      match type of IH with ?G1 -> ?G2 -> ?G3 -> ?G4 -> _ => assert (I1 : G1); [|assert (I2 : G4); [|specialize (IH I1 W2 HQ I2)]] end.
      { rewrite mu_is in *. cbn in *. lia. }
      { unfold win in *. cbn [t_ahead rev]. now rewrite <- app_assoc. }
      destruct (runE k p') as [a q|q|q|]; try exact IH. destruct IH as (t2 & cs2 & m2 & J1 & J2 & J3 & J4 & J5 & J6 & J7 & J8 & J9). exists t2, cs2, m2. do 8 (split; [assumption|]).
      eapply kept_trans; [|exact J9]. intros K. split; [exact K|]. cbn [t_ahead t_past rev]. rewrite <- app_assoc, Ep. reflexivity.
    - destruct HW as [W1 W2]. destruct cs as [|c cs]; [contradiction|]. rewrite (tape_tok p t) by (try apply HT; assumption). unfold t_tok. rewrite Ep. cbn [app hd].
      apply (IH (tok_of c) p t (c :: cs) m Q Q2); auto.
    - replace (s_ids (p_scanner p)) with (s_ids (t_scanner t)) by (destruct HT as ((-> & _) & _); reflexivity). destruct (ID (s_ids (t_scanner t)) s false) as [ids id].
      replace (set_ids (p_scanner p) ids) with (set_ids (t_scanner t) ids) by (destruct HT as ((-> & _) & _); reflexivity).
      exact (IH id (set_scanner p (set_ids (t_scanner t) ids)) (t_set t (set_ids (t_scanner t) ids)) cs m Q Q2 (set_s p t (set_ids (t_scanner t) ids) HT (proj1 (proj2 HT)) (fun x => x)) Ep Hc Hm (HW id) (HQ id) HN).
    - replace (s_ids (p_scanner p)) with (s_ids (t_scanner t)) by (destruct HT as ((-> & _) & _); reflexivity). apply (IH _ p t cs m Q Q2); auto.
    - replace (s_buffer (p_scanner p)) with (s_buffer (t_scanner t)) by (destruct HT as ((-> & _) & _); reflexivity). apply (IH _ p t cs m Q Q2); auto.
    - replace (p_scanner p) with (t_scanner t) by (destruct HT as ((-> & _) & _); reflexivity). cbv zeta.
      assert (I1 : st (set_scanner p (RuneReaderE (t_scanner t))) (t_set t (RuneReaderE (t_scanner t)))).
      { apply set_s; [exact HT|apply reader_rsane, HT|]. intros K. rewrite reader_in, K. reflexivity. }
      assert (I2 : (mu (t_set t (RuneReaderE (t_scanner t))) <= m)%nat) by (rewrite mu_is in *; cbn; pose proof (reader_rest (t_scanner t)); lia).
      specialize (IH (s_line (RuneReaderE (t_scanner t))) _ _ cs m Q Q2 I1 Ep Hc I2 (HW _) (HQ _) HN).
      destruct (runE _ _) as [a q|q|q|]; try exact IH. destruct IH as (t2 & cs2 & m2 & J1 & J2 & J3 & J4 & J5 & J6 & J7 & J8 & J9). exists t2, cs2, m2. do 8 (split; [assumption|]).
      eapply kept_trans; [|exact J9]. intros K. split; [now apply reader_pend|reflexivity].
  Qed.

  (** ** No failure *)
  Lemma act_same {A} (g : act A) : forall p, rsane (p_scanner p) -> text (p_in p) -> runE g p = run g p.
  Proof.
    induction g as [a| | | |k IH|k IH|k IH|s k IH|i k IH|l k IH|k IH]; intros p H F; cbn [runE run]; try reflexivity; try (now apply IH).
    - unfold scanRuneE, scanRune. destruct (p_unscanned p); [|apply IH; assumption]. destruct (scan_clean (p_scanner p) (nth ((p_current p + 1) mod lookBackAmount) (p_lookBack p) c_zero) H F) as (s' & c' & -> & -> & K1 & K2 & _).
      destruct (tok_of c') as [| |[|]| | | | | | | |]; try reflexivity; apply IH; assumption.
    - unfold unscan. destruct (_ <? _)%nat; [reflexivity|]. now apply IH.
    - destruct (ID _ s false). now apply IH.
    - rewrite (reader_same _ F). cbv zeta. rewrite <- (reader_same _ F). apply IH; [now apply reader_rsane|]. unfold p_in in *. cbn [p_scanner set_scanner]. rewrite reader_in. destruct (dropE_suffix (s_in (p_scanner p))) as [w Hw]. unfold text in *. rewrite Hw in F. now apply Forall_app in F.
  Qed.

  (** ** A failure *)
  Definition in_of {A} (o : outcome_ parser A) (l : list Z) : Prop :=
    match o with Done _ q | Failed q => p_in q = l | _ => True end.
  Definition swap {A} (o : outcome_ parser A) (l : list Z) : outcome_ parser A :=
    match o with Done a q => Done a (instead q l) | Failed q => Failed (instead q l) | Crashed q => Crashed (instead q l) | Stuck => Stuck end.
  Definition clean_act {A} (g : act A) (p : parser) (u m : list Z) : Prop :=
    exists v, text v /\ in_of (runE g p) (v ++ tError :: m) /\ forall t, text t -> run g (instead p (u ++ t)) = swap (runE g p) (v ++ t).

  Lemma rune_cases p t u m : st p t -> p_in p = u ++ tError :: m -> text u ->
    exists p' e t' c, scanRuneE p = Some (p', e) /\ st p' t' /\ t_past t' = c :: t_past t /\ p_failed p' = p_failed p /\
      length (t_ahead t') = pred (length (t_ahead t)) /\ p_tok p' = tok_of c /\ (mu t' + weight (tok_of c) <= mu t)%nat /\
      (if e then tok_of c = KError true else fine true (tok_of c)) /\ moved t t' c e /\
      ((exists v, text v /\ p_in p' = v ++ tError :: m /\ forall t, text t -> scanRune (instead p (u ++ t)) = Some (instead p' (v ++ t), e)) \/
       (t_ahead t = [] /\ p_in p' = m /\ (e = true \/ (pend (t_scanner t') /\ tok_of c <> KEnd /\ ~ In KEOF (toks (t_ahead t' ++ t_past t')))))).
  Proof.
    intros HT E F. destruct (step p t HT) as (p' & e & t' & c & S0 & S1 & S3 & S4 & S5 & S6 & S7 & S8 & S9). exists p', e, t', c. repeat (split; [assumption|]).
    pose proof HT as (HO & HS & HF & HE). pose proof HO as (H1 & H2 & H3 & H4 & H5 & H6). unfold p_in in *. rewrite H1 in E.
    assert (Hs' : p_scanner p' = t_scanner t') by apply S1.
    destruct S9 as [(S9 & S10 & S11)|(S9 & S10 & S11)].
    - left. exists u. split; [exact F|]. split; [rewrite Hs', S10; exact E|]. intros l Fl. unfold scanRuneE in S0. unfold scanRune. cbn [instead set_scanner p_unscanned p_current p_scanner p_lookBack p_failed].
      rewrite S9 in H2. cbn [length] in H2. rewrite H2 in *. injection S0 as <- <-. reflexivity.
    - destruct (scan_cases (t_scanner t) (nth 2 (t_past t) c_zero) u m HS E F) as (s' & c' & E1 & K1 & K2 & K3 & K4). rewrite E1 in S11. injection S11 as S11 <-.
      rewrite S9 in H2. cbn [length] in H2. assert (Ec : nth ((p_current p + 1) mod lookBackAmount) (p_lookBack p) c_zero = nth 2 (t_past t) c_zero).
      { change lookBackAmount with 3%nat. specialize (H6 2%nat ltac:(lia)). rewrite H2, S9 in H6. cbn [rev app] in H6. rewrite <- H6. f_equal. f_equal. lia. }
      destruct K4 as [(v & V1 & V2 & V3)|(V1 & V2)].
      + left. exists v. split; [exact V1|]. split; [rewrite Hs', <- S11; exact V2|]. intros l Fl. unfold scanRuneE in S0. unfold scanRune. cbn [instead set_scanner p_unscanned p_current p_scanner p_lookBack p_failed]. rewrite H2, Ec, H1 in *.
        rewrite E1 in S0. injection S0 as <- <-. rewrite (V3 l Fl). reflexivity.
      + right. split; [exact S9|]. split; [rewrite Hs', <- S11; exact V1|]. destruct V2 as [V2|(V2 & V3 & V4)].
        * left. destruct e; [reflexivity|]. destruct S8 as [S8 _]. now elim S8.
        * right. rewrite <- S11. split; [exact V2|]. split; [exact V3|]. rewrite S10, S3. cbn [app toks map In]. intros [K|K]; [now apply V4|].
          assert (Z0 : s_in (t_scanner t) = []) by (apply HE; rewrite S9; exact K). rewrite Z0 in E. now destruct u.
  Qed.

  Lemma instead_set p s l : instead (set_scanner p s) l = set_scanner p (with_in s l).
  Proof. reflexivity. Qed.

  Definition lost (base : list sctx) {A} (Q2 : list tok -> A -> Prop) (a : A) (p' : parser) : Prop :=
    exists t' cs' c l, st p' t' /\ t_past t' = cs' ++ base /\ Q2 (toks cs') a /\ win t' cs' /\
      rev (t_ahead t') ++ t_past t' = c :: l /\ tok_of c <> KEnd /\ ~ In KEOF (toks (c :: l)).

  Lemma gives_run {A} (R : A -> Prop) (g : act A) : gives R g -> forall p a p', runE g p = Done a p' -> R a.
  Proof.
    induction g as [a| | | |k IH|k IH|k IH|s k IH|i k IH|l k IH|k IH]; intros H p a' p'; cbn [runE gives] in *; try discriminate.
    - now intros [= <- _].
    - destruct (scanRuneE p) as [[q [|]]|]; try discriminate. apply IH, H.
    - destruct (unscan p); [|discriminate]. now apply IH.
    - apply IH, H.
    - destruct (ID _ s false). apply IH, H.
    - apply IH, H.
    - apply IH, H.
    - apply IH, H.
  Qed.

  Lemma act_cases {A} (R : A -> Prop) (base : list sctx) (g : act A) : forall p t cs m0 (Q : list tok -> nat -> nat -> A -> Prop) (Q2 : list tok -> A -> Prop) u m,
    st p t -> t_past t = cs ++ base -> Forall ok_tok cs -> (mu t <= m0)%nat ->
    wp true C M (toks cs) (length (t_ahead t)) m0 g Q -> qp (toks cs) g Q2 -> win t cs -> reads R g ->
    p_in p = u ++ tError :: m -> text u ->
    clean_act g p u m \/ match runE g p with Done a p' => R a \/ lost base Q2 a p' | _ => True end.
  Proof.
    induction g as [a| | | |k IH|k IH|k IH|s k IH|i k IH|l k IH|k IH]; intros p t cs m0 Q Q2 u m HT Ep Hc Hm HW HQ HN HR E F; cbn [wp] in HW; cbn [qp] in HQ; cbn [reads] in HR.
    - left. exists u. split; [exact F|]. split; [exact E|]. reflexivity.
    - left. exists u. split; [exact F|]. split; [exact E|]. reflexivity.
    - left. exists u. split; [exact F|]. split; [exact Logic.I|]. reflexivity.
    - left. exists u. split; [exact F|]. split; [exact Logic.I|]. reflexivity.
    - destruct HW as (W1 & W2 & W3). destruct HQ as [HQ1 HQ2]. destruct (rune_cases p t u m HT E F) as (p' & e & t' & c & S0 & S1 & S3 & S4 & S5 & S6 & S7 & S8 & S9 & S10).
      unfold clean_act. cbn [runE run]. rewrite S0. destruct e.
      { destruct S10 as [(v & V1 & V2 & V3)|_]; [|now right]. left. exists v. split; [exact V1|]. split; [exact V2|]. intros l Fl. rewrite (V3 l Fl). reflexivity. }
      assert (N : win t' (c :: cs)).
      { unfold win in *. destruct S9 as [(S9 & _)|(S9 & S9' & _)]; [rewrite S9 in HN; cbn [rev] in HN; now rewrite <- app_assoc in HN|]. rewrite S9'. exact HQ1. }
      assert (I : exists m', (mu t' <= m')%nat /\ wp true C M (toks (c :: cs)) (length (t_ahead t')) m' (k (tok_of c)) Q).
      { assert (D : tok_of c = KEOF \/ tok_of c <> KEOF) by (destruct (tok_of c); auto; right; discriminate). destruct D as [D|D].
        - exists m0. split; [lia|]. rewrite S5. cbn [toks map]. rewrite D. exact W2.
        - assert (Ew : weight (tok_of c) = 1%nat) by (destruct (tok_of c); try reflexivity; now elim D). exists (pred m0). split; [lia|]. rewrite S5. cbn [toks map]. apply W3; [exact S8|exact D|lia]. }
      destruct I as (m' & I1 & I2). rewrite S6.
      assert (Ep' : t_past t' = (c :: cs) ++ base) by now rewrite S3, Ep. assert (Hc' : Forall ok_tok (c :: cs)) by now constructor.
      destruct S10 as [(v & V1 & V2 & V3)|(_ & V2 & [V3|(V3 & V4 & V5)])]; [|discriminate|].
      + specialize (IH (tok_of c) p' t' (c :: cs) m' Q Q2 v m S1 Ep' Hc' I1 I2 (HQ2 (tok_of c)) N (HR (tok_of c)) V2 V1). destruct IH as [(v' & J1 & J2 & J3)|IH]; [left|right; exact IH].
        exists v'. split; [exact J1|]. split; [exact J2|]. intros l Fl. rewrite (V3 l Fl). cbv beta iota. change (p_tok (instead p' (v ++ l))) with (p_tok p'). rewrite S6. now apply J3.
      + right. pose proof (act_total base (k (tok_of c)) p' t' (c :: cs) m' Q Q2 S1 Ep' Hc' I1 I2 (HQ2 (tok_of c)) N) as T.
        destruct (runE (k (tok_of c)) p') as [a q|q|q|]; try exact Logic.I. right. destruct T as (t2 & cs2 & m2 & J1 & J2 & J3 & J4 & J5 & J6 & J7 & J8 & J9). destruct (J9 V3) as [_ J10].
        exists t2, cs2, c, (t_past t). split; [exact J1|]. split; [exact J3|]. split; [exact J7|]. split; [exact J8|]. assert (Ea : t_ahead t' = []).
        { destruct S9 as [(S9 & S9' & _)|(_ & S9' & _)]; [|exact S9']. exfalso. assert (K : p_in p' = p_in p) by (unfold p_in; replace (p_scanner p') with (t_scanner t') by (symmetry; apply S1); rewrite S9'; f_equal; symmetry; apply HT).
          rewrite V2, E in K. apply (f_equal (@length Z)) in K. rewrite app_length in K. cbn in K. lia. }
        rewrite Ea in *. cbn [rev app] in J10, V5. rewrite S3 in *. split; [exact J10|]. split; [exact V4|exact V5].
    - destruct HW as [W1 W2]. destruct cs as [|c cs]; [contradiction|]. cbn [toks map] in W2, HQ. inversion Hc as [|? ? C1 C2]; subst.
      destruct (back p t c (cs ++ base) HT W1 Ep C1) as (p' & E1 & S1 & S2). unfold clean_act. cbn [runE run]. rewrite E1.
      assert (Es : p_scanner p' = p_scanner p) by (unfold unscan in E1; destruct (_ <? _)%nat; [discriminate|]; now injection E1 as <-).
      assert (E1' : forall l, unscan (instead p l) = Some (instead p' l)) by (intros l; unfold unscan in E1 |- *; cbn [instead set_scanner p_unscanned]; destruct (_ <? _)%nat; [discriminate|]; now injection E1 as <-).
      assert (I1 : (mu {| t_past := cs ++ base; t_ahead := c :: t_ahead t; t_scanner := t_scanner t |} <= m0 + weight (tok_of c))%nat) by (rewrite mu_is in *; cbn in *; lia).
      assert (I2 : win {| t_past := cs ++ base; t_ahead := c :: t_ahead t; t_scanner := t_scanner t |} cs) by (unfold win in *; cbn [t_ahead rev]; now rewrite <- app_assoc).
      assert (I3 : p_in p' = u ++ tError :: m) by (unfold p_in in *; now rewrite Es).
      specialize (IH p' _ cs (m0 + weight (tok_of c))%nat Q Q2 u m S1 eq_refl C2 I1 W2 HQ I2 HR I3 F). destruct IH as [(v' & J1 & J2 & J3)|IH]; [left|right; exact IH].
      exists v'. split; [exact J1|]. split; [exact J2|]. intros l Fl. rewrite E1'. now apply J3.
    - destruct HW as [W1 W2]. destruct cs as [|c cs]; [contradiction|]. unfold clean_act. cbn [runE run]. assert (Et : p_tok p = tok_of c) by (rewrite (tape_tok p t) by (try apply HT; assumption); unfold t_tok; now rewrite Ep).
      specialize (IH (tok_of c) p t (c :: cs) m0 Q Q2 u m HT Ep Hc Hm W2 HQ HN (HR _) E F). rewrite Et. destruct IH as [(v' & J1 & J2 & J3)|IH]; [left|right; exact IH].
      exists v'. split; [exact J1|]. split; [exact J2|]. intros l Fl. change (p_tok (instead p (u ++ l))) with (p_tok p). rewrite Et. now apply J3.
    - unfold clean_act. cbn [runE run instead set_scanner p_scanner with_in s_ids]. destruct (ID (s_ids (p_scanner p)) s false) as [ids id] eqn:Ei.
      assert (Es : p_scanner p = t_scanner t) by apply HT.
      assert (I1 : st (set_scanner p (set_ids (p_scanner p) ids)) (t_set t (set_ids (p_scanner p) ids))) by (rewrite Es; exact (set_s p t (set_ids (t_scanner t) ids) HT (proj1 (proj2 HT)) (fun x => x))).
      assert (I2 : (mu (t_set t (set_ids (p_scanner p) ids)) <= m0)%nat) by (rewrite Es; exact Hm).
      specialize (IH id _ _ cs m0 Q Q2 u m I1 Ep Hc I2 (HW id) (HQ id) HN (HR id) E F). destruct IH as [(v' & J1 & J2 & J3)|IH]; [left|right; exact IH].
      exists v'. split; [exact J1|]. split; [exact J2|]. exact J3.
    - unfold clean_act. cbn [runE run instead set_scanner p_scanner with_in s_ids].
      destruct (IH _ p t cs m0 Q Q2 u m HT Ep Hc Hm (HW (idString (s_ids (p_scanner p)) i)) (HQ _) HN (HR _) E F) as [(v' & J1 & J2 & J3)|J]; [left; exists v'; auto|right; exact J].
    - unfold clean_act. cbn [runE run instead set_scanner p_scanner with_in s_buffer].
      destruct (IH _ p t cs m0 Q Q2 u m HT Ep Hc Hm (HW (b_look (s_buffer (p_scanner p)) l)) (HQ _) HN (HR _) E F) as [(v' & J1 & J2 & J3)|J]; [left; exists v'; auto|right; exact J].
    - assert (Es : p_scanner p = t_scanner t) by apply HT. unfold clean_act. cbn [runE run]. cbv zeta.
      destruct (drop_clean u m F) as [(v & V1 & V2 & V3 & V4)|V].
      + assert (I1 : st (set_scanner p (RuneReaderE (p_scanner p))) (t_set t (RuneReaderE (p_scanner p)))).
        { rewrite Es. apply set_s; [exact HT|apply reader_rsane, HT|]. intros K. rewrite reader_in, K. reflexivity. }
        assert (I2 : (mu (t_set t (RuneReaderE (p_scanner p))) <= m0)%nat) by (rewrite Es, mu_is in *; cbn; pose proof (reader_rest (t_scanner t)); lia).
        assert (I3 : p_in (set_scanner p (RuneReaderE (p_scanner p))) = v ++ tError :: m) by (unfold p_in in *; cbn [p_scanner set_scanner]; now rewrite reader_in, E).
        destruct (HR (s_line (RuneReaderE (p_scanner p)))) as [HR1 _].
        destruct (IH (s_line (RuneReaderE (p_scanner p))) _ _ cs m0 Q Q2 v m I1 Ep Hc I2 (HW _) (HQ _) HN (n_reads R _ HR1) I3 V1) as [(v' & J1 & J2 & J3)|J]; [left|right; exact J].
        exists v'. split; [exact J1|]. split; [exact J2|]. intros l Fl. rewrite <- (J3 l Fl). f_equal; [|cbn [instead set_scanner p_scanner]]; unfold RuneReader, RuneReaderE; cbn [instead set_scanner p_scanner with_in s_in]; unfold p_in in E; rewrite E, (V4 l);
          destruct (dropLineE (u ++ tError :: m)) as [d b] eqn:Ed; cbn [fst snd] in V2, V3; subst; reflexivity.
      + right. destruct (runE _ _) as [a q|q|q|] eqn:Er; try exact Logic.I. left. destruct (HR (s_line (RuneReaderE (p_scanner p)))) as [_ HR2]. exact (gives_run R _ HR2 _ _ _ Er).
  Qed.
End Step.
