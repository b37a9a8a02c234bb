(** Proofs for property C67. *)

From Verif Require Import ModelParser ModelErrorText SpecScanner SpecParser SpecPosition SpecRecover SpecPlace LemmasBase LemmasScanner LemmasScanText LemmasScan LemmasScanAll LemmasScanProps LemmasPosition LemmasParserRun LemmasParserProps LemmasParserEnds LemmasResume.
From Verif Require SpecCast LemmasCast.

(** ** Where a text begins *)
Lemma has_cons u r l : has u l -> has u (r :: l).
Proof. intros (a & b & ->). now exists (r :: a), b. Qed.

(** The first end of a block comment. *)
Lemma block_split l : ~ has [42; 47] l \/ exists u w, l = u ++ [42; 47] ++ w /\ ~ has [42; 47] (u ++ [42]).
Proof.
  induction l as [|r l IH].
  - left. intros (a & b & E). destruct a; discriminate.
  - destruct (list_eq_dec Z.eq_dec (firstn 2 (r :: l)) [42; 47]) as [E|N].
    + right. destruct l as [|x l]; [discriminate|]. injection E as -> ->. exists [], l. split; [reflexivity|]. intros (a & b & E). destruct a as [|? [|? ?]]; discriminate.
    + assert (K : forall m, firstn 2 (r :: m) <> [42; 47] -> has [42; 47] (r :: m) -> has [42; 47] m).
      { intros m Nm (a & b & E). destruct a as [|y a]; [now rewrite E in Nm|]. injection E as -> ->. now exists a, b. }
      destruct IH as [H|(u & w & -> & H)]; [left; intros Q; now apply H, K|].
      right. exists (r :: u), w. split; [reflexivity|]. intros Q. apply H. apply K; [|exact Q]. intros E. apply N. destruct u as [|y u]; cbn in *; [now injection E as -> ?|exact E].
Qed.

Lemma line_split l : ~ In 10 l \/ exists u w, l = u ++ [10] ++ w /\ ~ In 10 u.
Proof.
  induction l as [|r l IH]; [left; intros []|]. destruct (Z.eq_dec r 10) as [->|N]; [right; exists [], l; split; [reflexivity|intros []]|].
  destruct IH as [H|(u & w & -> & H)]; [left; intros [E|Q]; [now apply N|now apply H]|].
  right. exists (r :: u), w. split; [reflexivity|]. intros [E|Q]; [now apply N|now apply H].
Qed.

Section Place.
  Context {X : FloatLib} {L : CaseLib} {U : RuneLib} {B : BufLib} {P : PrintLib} (HU : RuneLib_scan U).

  (** Behind white space and comments there is a token, an end of statement, or
      the end of the file. *)
  Lemma text_begins n : forall l, (length l < n)%nat ->
    exists g l', l = g ++ l' /\ gap g /\
      (no_token l' \/ (exists w, l' = 59 :: w) \/
       (exists r w, l' = r :: w /\ begins r w /\ r <> 45 /\ r <> 47) \/
       (exists r x w, l' = r :: x :: w /\ begins r (x :: w) /\ (r = 45 \/ r = 47))).
  Proof.
    induction n as [|n IH]; intros l Hn; [lia|]. destruct l as [|r l].
    { exists [], []. split; [reflexivity|]. split; [constructor|]. left. constructor. }
    destruct (x_is_space r) eqn:Es.
    { destruct (IH l ltac:(cbn in Hn; lia)) as (g & l' & -> & G & K). exists (r :: g), l'. split; [reflexivity|]. split; [now constructor|exact K]. }
    destruct (Z.eq_dec r 59) as [->|N1]; [exists [], (59 :: l); split; [reflexivity|]; split; [constructor|]; right; left; eauto|].
    destruct (Z.eq_dec r 45) as [->|N2].
    { destruct l as [|x l]; [exists [], [45]; split; [reflexivity|]; split; [constructor|]; left; constructor|].
      destruct (Z.eq_dec x 45) as [->|Nx].
      - destruct (line_split l) as [H|(u & w & -> & H)].
        + exists [], (45 :: 45 :: l). split; [reflexivity|]. split; [constructor|]. left. now apply (nt_line l).
        + destruct (IH w) as (g & l' & -> & G & K); [cbn in Hn; rewrite !app_length in Hn; cbn in Hn; lia|].
          exists ([45; 45] ++ u ++ [10] ++ g), l'. split; [cbn; now rewrite <- app_assoc|]. split; [now apply gap_line|exact K].
      - exists [], (45 :: x :: l). split; [reflexivity|]. split; [constructor|]. right. right. right. exists 45, x, l. split; [reflexivity|]. split; [|now left].
        split; [exact Es|]. split; [exact N1|]. split; [|discriminate]. intros w' _ [= E _]. now apply Nx. }
    destruct (Z.eq_dec r 47) as [->|N3].
    { destruct l as [|x l]; [exists [], [47]; split; [reflexivity|]; split; [constructor|]; left; constructor|].
      destruct (Z.eq_dec x 42) as [->|Nx].
      - destruct (block_split l) as [H|(u & w & -> & H)].
        + exists [], (47 :: 42 :: l). split; [reflexivity|]. split; [constructor|]. left. now apply (nt_block l).
        + destruct (IH w) as (g & l' & -> & G & K); [cbn in Hn; rewrite !app_length in Hn; cbn in Hn; lia|].
          exists ([47; 42] ++ u ++ [42; 47] ++ g), l'. split; [cbn; now rewrite <- app_assoc|]. split; [now apply gap_block|exact K].
      - exists [], (47 :: x :: l). split; [reflexivity|]. split; [constructor|]. right. right. right. exists 47, x, l. split; [reflexivity|]. split; [|now right].
        split; [exact Es|]. split; [exact N1|]. split; [discriminate|]. intros w' _ [= E _]. now apply Nx. }
    exists [], (r :: l). split; [reflexivity|]. split; [constructor|]. right. right. left. exists r, l. split; [reflexivity|]. split; [|now split].
    split; [exact Es|]. split; [exact N1|]. split; intros w' E; contradiction.
  Qed.

  (** Every token that is scanned is reported where it is. *)
  Lemma scanned_reported input before s c s' c' : tokenizing input s -> input = before ++ rest s -> Scan s c = Some (s', c') ->
    reported before (rest s) c' c.
  Proof.
    intros H Hb E. destruct (text_begins (S (length (rest s))) (rest s) ltac:(lia)) as (g & l & R & G & [K|[(w & ->)|[(r & w & -> & Hr & N1 & N2)|(r & x & w & -> & Hr & Hx)]]]).
    - rewrite (eof_position HU input s c g l s' c' H R G K E). now apply (rp_eof _ _ _ _ g l).
    - rewrite (end_position HU input s c g w s' c' H R G E). now apply (rp_end _ _ _ _ g w).
    - apply (rp_token _ _ _ _ g r w); auto. now apply (token_position HU input before s c g r w s' c').
    - apply (rp_sign _ _ _ _ g r x w); auto. now apply (sign_position HU input before s c g r x w s' c').
  Qed.

  (** ** Running on a tape *)
  Lemma astray_next input s c s' c' : astray input s -> Scan s c = Some (s', c') -> astray input s'.
  Proof. intros H E. exact (as_scan _ _ _ _ _ H E). Qed.

  (** The scanner is where tokens are, behind [start]. *)
  Definition clean (input start : list Z) (s : scanner) : Prop :=
    tokenizing input s /\ exists u, start = u ++ rest s.

  (** The tokens above [base] were scanned, each into the context of the third
      token before it. *)
  Definition scanned_above (input start : list Z) (base l : list sctx) : Prop :=
    forall a x b, l = a ++ x :: b -> exists s s', clean input start s /\ Scan s (nth 2 (b ++ base) c_zero) = Some (s', x).

  Definition sited (input start : list Z) (base : list sctx) (t : tape) : Prop :=
    astray input (t_scanner t) \/
    (clean input start (t_scanner t) /\ exists l, rev (t_ahead t) ++ t_past t = l ++ base /\ scanned_above input start base l).

  Lemma clean_scan input start s c s' c' : clean input start s -> Scan s c = Some (s', c') -> clean input start s'.
  Proof.
    intros (H & u & ->) E. split; [exact (tz_scan _ _ _ _ _ H E)|]. destruct (in_order HU _ _ _ _ _ (tokenizing_scanning _ _ H) E) as (w & -> & _). exists (u ++ w). now rewrite app_assoc.
  Qed.

  Lemma clean_ids input start s t : clean input start s -> clean input start (set_ids s t).
  Proof. intros (H & u & ->). split; [now constructor|]. exists u. now destruct s. Qed.

  Lemma dropLine_suffix l : exists u, l = u ++ fst (dropLine l).
  Proof. induction l as [|r l [u IH]]; cbn; [now exists []|]. destruct (r =? 10); [now exists [r]|]. exists (r :: u). cbn. now rewrite <- IH. Qed.

  Lemma reader_sited input start s : clean input start s -> clean input start (RuneReader s) \/ astray input (RuneReader s).
  Proof.
    intros (H & u & ->). destruct (s_unread s) eqn:E; [right; now apply as_reader|left]. split; [now apply tz_reader|].
    assert (R0 : rest s = s_in s) by (unfold rest; now rewrite E). rewrite R0. destruct (dropLine_suffix (s_in s)) as [w Hw]. exists (u ++ w). unfold RuneReader, rest. destruct (dropLine (s_in s)) as [l nl]. cbn in *. rewrite E. cbn. rewrite Hw. now rewrite app_assoc.
  Qed.

  Lemma sited_next input start base t t' e : sited input start base t -> t_next t = Some (t', e) -> sited input start base t'.
  Proof.
    unfold t_next, sited. destruct (t_ahead t) as [|c ahead] eqn:Ea.
    - destruct (Scan _ _) as [[s c]|] eqn:Es; [|discriminate]. intros [H|(H & l & El & F)] [= <- _]; cbn [t_scanner t_ahead t_past]; [left; exact (as_scan _ _ _ _ _ H Es)|].
      right. split; [exact (clean_scan _ _ _ _ _ _ H Es)|]. exists (c :: l). cbn [rev app] in *. split; [now rewrite El|]. intros a x b E. destruct a as [|y a].
      + injection E as <- <-. rewrite El in Es. eauto.
      + injection E as <- E. exact (F a x b E).
    - intros [H|(H & l & El & F)] [= <- _]; cbn [t_scanner t_ahead t_past]; [now left|]. right. split; [exact H|]. exists l. split; [|exact F]. rewrite <- El. cbn [rev]. now rewrite <- app_assoc.
  Qed.

  Lemma sited_back input start base t t' : sited input start base t -> t_back t = Some t' -> sited input start base t'.
  Proof.
    unfold t_back, sited. destruct (t_past t) as [|c past] eqn:Ep; [discriminate|]. intros [H|(H & l & El & F)] [= <-]; cbn [t_scanner t_ahead t_past]; [now left|].
    right. split; [exact H|]. exists l. split; [|exact F]. rewrite <- El. cbn [rev]. now rewrite <- app_assoc.
  Qed.

  Lemma sited_ids input start base t ids : sited input start base t -> sited input start base (t_set t (set_ids (t_scanner t) ids)).
  Proof. intros [H|(H & K)]; [left; now apply as_ids|right; split; [now apply clean_ids|exact K]]. Qed.

  Lemma sited_reader input start base t : sited input start base t -> sited input start base (t_set t (RuneReader (t_scanner t))).
  Proof. intros [H|(H & K)]; [left; now apply as_more|]. destruct (reader_sited _ _ _ H) as [R|R]; [right; split; [exact R|exact K]|now left]. Qed.

  Definition sited_out {A} (input start : list Z) (base : list sctx) (r : outcome_ tape A) : Prop :=
    match r with Done _ t | Failed t | Crashed t => sited input start base t | Stuck => True end.

  Lemma run_sited {A} input start base (g : act A) : forall t, sited input start base t -> sited_out input start base (t_run g t).
  Proof.
    induction g as [a| | | |k IH|k IH|k IH|s k IH|i k IH|l k IH|k IH]; intros t H; cbn [t_run]; try exact H; try exact Logic.I; auto.
    - destruct (t_next t) as [[t' [|]]|] eqn:E; [exact (sited_next _ _ _ _ _ _ H E)|apply IH; exact (sited_next _ _ _ _ _ _ H E)|exact Logic.I].
    - destruct (t_back t) as [t'|] eqn:E; [apply IH; exact (sited_back _ _ _ _ _ H E)|exact H].
    - destruct (ID _ s false) as [ids id]. apply IH. now apply sited_ids.
    - apply IH. now apply sited_reader.
  Qed.

  Lemma skip_sited input start base n : forall t, sited input start base t ->
    match t_skip n t with inl (TStmt _ t') | inl (TErr t') | inl (TFailed t') | inl (TEOF t') | inr t' => sited input start base t' | _ => True end.
  Proof.
    induction n as [|n IH]; intros t H; cbn [t_skip]; [exact Logic.I|]. destruct (t_next t) as [[t' e]|] eqn:E; [|exact Logic.I]. pose proof (sited_next _ _ _ _ _ _ H E) as H'.
    destruct e; [exact H'|]. destruct (t_tok t'); try exact H'; now apply IH.
  Qed.

  Lemma parse_sited input start base failed t : sited input start base t ->
    match t_parse failed t with TStmt _ t' | TErr t' | TFailed t' | TEOF t' => sited input start base t' | _ => True end.
  Proof.
    intros H. unfold t_parse. destruct (t_next t) as [[t1 [|]]|] eqn:E; [exact (sited_next _ _ _ _ _ _ H E)| |exact Logic.I]. pose proof (sited_next _ _ _ _ _ _ H E) as H1.
    assert (K : match match t_back t1 with
      | None => TCrash t1
      | Some t => match (if failed then t_skip (t_fuel t) t else inr t) with
          | inl r => r
          | inr t => match t_run (parseWhole (t_fuel t)) t with Done s t => TStmt s t | Failed t => TFailed t | Crashed t => TCrash t | Stuck => TStuck end
          end
      end with TStmt _ t' | TErr t' | TFailed t' | TEOF t' => sited input start base t' | _ => True end).
    { destruct (t_back t1) as [t2|] eqn:E2; [|exact Logic.I]. pose proof (sited_back _ _ _ _ _ H1 E2) as H2.
      assert (W : forall t, sited input start base t -> match match t_run (parseWhole (t_fuel t)) t with Done s t => TStmt s t | Failed t => TFailed t | Crashed t => TCrash t | Stuck => TStuck end
        with TStmt _ t' | TErr t' | TFailed t' | TEOF t' => sited input start base t' | _ => True end).
      { intros t0 H0. pose proof (run_sited input start base (parseWhole (t_fuel t0)) t0 H0) as R. now destruct (t_run _ _). }
      destruct failed; [|now apply W]. pose proof (skip_sited input start base (t_fuel t2) t2 H2) as S. destruct (t_skip _ _) as [r|t0]; [|now apply W]. now destruct r. }
    destruct (t_tok t1); try exact K; exact H1.
  Qed.

  (** ** The states of a parser *)
  Lemma parsing_sited input p : parsing input p -> exists t, in_step input p t /\ sited input input [] t.
  Proof.
    intros H. induction H as [ids input H|input p s p' H IH E|input p p' H IH E|input p p' H IH E|input p e p' H IH E|input p p' H IH E|input p t H IH|input p H IH];
      try destruct IH as (t0 & HI & HS).
    - eexists. split; [now apply start_in_step|]. right. cbn. split; [split; [now constructor|now exists []]|]. exists []. split; [reflexivity|]. intros [|? ?] x b K; discriminate.
    - pose proof (parse_same HU _ _ _ HI) as K. rewrite E in K. pose proof (parse_sited input input [] (p_failed p) t0 HS) as W. destruct (t_parse _ _); try contradiction. exists t. split; [apply K|exact W].
    - pose proof (parse_same HU _ _ _ HI) as K. rewrite E in K. pose proof (parse_sited input input [] (p_failed p) t0 HS) as W. destruct (t_parse _ _); try contradiction; exists t; (split; [apply K|exact W]).
    - pose proof (parse_same HU _ _ _ HI) as K. rewrite E in K. pose proof (parse_sited input input [] (p_failed p) t0 HS) as W. destruct (t_parse _ _); try contradiction. exists t. split; [apply K|exact W].
    - pose proof HI as [HT Hu]%in_step_st. pose proof (ParseExpr_sound HU input true (no_bad input) p t0 HT Hu) as K. rewrite E in K. pose proof (run_sited input input [] (parseExpr (t_fuel t0)) t0 HS) as W. destruct (t_run _ _) as [e' t'|t'|t'|]; try contradiction. exists t'. split; [apply in_step_st; tauto|exact W].
    - pose proof HI as [HT Hu]%in_step_st. pose proof (ParseExpr_sound HU input true (no_bad input) p t0 HT Hu) as K. rewrite E in K. pose proof (run_sited input input [] (parseExpr (t_fuel t0)) t0 HS) as W. destruct (t_run _ _) as [e' t'|t'|t'|]; try contradiction. exists t'. split; [apply in_step_st; tauto|exact W].
    - pose proof HI as [HT Hu]%in_step_st. pose proof HT as [(Es & _) [HSc _]]. rewrite Es. exists (t_set t0 (set_ids (t_scanner t0) t)). split; [|now apply sited_ids]. apply in_step_st. split; [|exact Hu]. apply set_step; [exact HT|]. now constructor.
    - pose proof HI as [HT Hu]%in_step_st. pose proof HT as [(Es & _) [HSc _]]. rewrite Es. exists (t_set t0 (snd (runeReaderReadRune (t_scanner t0)))). split.
      + apply in_step_st. split; [|exact Hu]. apply set_step; [exact HT|]. now constructor.
      + destruct HS as [HS|((C & u & Hu') & K)]; [left; now apply as_more_data|]. destruct (s_unread (t_scanner t0)) eqn:Er; [left; now apply as_data|]. right. split; [|exact K].
        split; [now apply tz_data|]. cbn [t_set t_scanner]. destruct (tokenizing_before HU input (snd (runeReaderReadRune (t_scanner t0)))) as [u1 Hu1]; [now apply tz_data|]. now exists u1.
  Qed.

  Lemma p_sctx_hd input p t : in_step input p t -> p_sctx p = hd c_zero (t_past t).
  Proof.
    intros [(_ & Hu & _ & _ & Hc & Hn) (_ & Hl & _)]. specialize (Hn (p_unscanned p) ltac:(lia)). unfold p_sctx.
    replace (p_current p + p_unscanned p + 3 - p_unscanned p)%nat with (p_current p + 1 * 3)%nat in Hn by lia. rewrite Nat.mod_add, Nat.mod_small in Hn by lia. rewrite Hn, Hu.
    rewrite app_nth2 by (rewrite rev_length; lia). rewrite rev_length, Nat.sub_diag. now destruct (t_past t).
  Qed.

  Lemma behind_past t t' : behind_next t t' -> exists cs, t_past t' = cs ++ t_past t.
  Proof.
    induction 1 as [t t' En Et|t t1 t' En N1 N2 _ [cs IH]]; destruct (t_next_past _ _ _ En) as [c Ec].
    - now exists [c].
    - exists (cs ++ [c]). rewrite IH, Ec. now rewrite <- app_assoc.
  Qed.

  (** The last token that was read, of those above [base]. *)
  Lemma above_reported input start base t x cs : sited input start base t -> t_past t = (x :: cs) ++ base ->
    astray input (t_scanner t) \/ exists before u text, input = before ++ text /\ start = u ++ text /\ reported before text x (nth 3 (t_past t) c_zero).
  Proof.
    intros [H|(H & l & El & F)] Ep; [now left|right]. rewrite Ep, app_assoc in El. apply app_inv_tail in El. destruct (F (rev (t_ahead t)) x cs (eq_sym El)) as (s & s' & (Hs & u & Hu) & Es).
    destruct (tokenizing_before HU input s Hs) as [before Hb]. exists before, u, (rest s). split; [exact Hb|]. split; [exact Hu|]. rewrite Ep. cbn [app nth].
    exact (scanned_reported input before s _ s' x Hs Hb Es).
  Qed.

  (** What a call read, when it fails. *)
  Lemma failed_past failed t t' : t_parse failed t = TErr t' \/ t_parse failed t = TFailed t' -> exists x cs, t_past t' = (x :: cs) ++ t_past t.
  Proof.
    intros E. pose proof (parse_parts failed t) as R. destruct (t_next t) as [[t1 [|]]|] eqn:En.
    - rewrite R in E. destruct E as [[= <-]|E]; [|discriminate]. destruct (t_next_past _ _ _ En) as [c Ec]. now exists c, [].
    - destruct R as [[_ R]|(N & t2 & E1 & E2 & E3 & _ & _ & R)]; rewrite R in E; [destruct E; discriminate|].
      assert (W : forall t0, t_whole t0 = TErr t' \/ t_whole t0 = TFailed t' -> exists x cs, t_past t' = (x :: cs) ++ t_past t0).
      { intros t0 E0. pose proof (whole_ends t0) as W. destruct E0 as [E0|E0]; rewrite E0 in W; [contradiction|]. destruct W as (cs & W1 & W2 & _). destruct cs as [|x cs]; [now elim W2|]. now exists x, cs. }
      rewrite <- E2. destruct failed; [|now apply W]. destruct (t_skip (t_fuel t2) t2) as [r|t0] eqn:Es.
      + apply skip_ends in Es. destruct E as [->| ->]; [|contradiction]. destruct Es as (c & cs & H1 & _). now exists c, cs.
      + apply skip_behind in Es. destruct (behind_past _ _ Es) as [cs0 H0]. destruct (W t0 E) as (x & cs & H1). exists x, (cs ++ cs0). rewrite H1, H0. cbn. now rewrite app_assoc.
    - rewrite R in E. destruct E; discriminate.
  Qed.

  Lemma error_tape input p t p' : in_step input p t -> Parse p = PErr p' ->
    exists t' x cs, in_step input p' t' /\ p_sctx p' = x /\ t_past t' = (x :: cs) ++ t_past t /\
      forall start base, sited input start base t -> sited input start base t'.
  Proof.
    intros HI E. pose proof (parse_same HU _ _ _ HI) as K. rewrite E in K. pose proof (fun start base => parse_sited input start base (p_failed p) t) as W.
    destruct (t_parse (p_failed p) t) as [|t1|t1| | |] eqn:Et; try contradiction; destruct K as [K _].
    - destruct (failed_past (p_failed p) t t1 (or_introl Et)) as (x & cs & H). exists t1, x, cs. split; [exact K|]. split; [rewrite (p_sctx_hd _ _ _ K), H; reflexivity|]. split; [exact H|exact W].
    - destruct (failed_past (p_failed p) t t1 (or_intror Et)) as (x & cs & H). exists t1, x, cs. split; [exact K|]. split; [rewrite (p_sctx_hd _ _ _ K), H; reflexivity|]. split; [exact H|exact W].
  Qed.

  Lemma error_where input p p' : parsing input p -> Parse p = PErr p' ->
    astray input (p_scanner p') \/
    exists before text t, input = before ++ text /\ in_step input p' t /\ reported before text (p_sctx p') (nth 3 (t_past t) c_zero).
  Proof.
    intros H E. destruct (parsing_sited input p H) as (t & HI & HS). destruct (error_tape input p t p' HI E) as (t' & x & cs & HI' & Hx & Ep & W).
    specialize (W input [] HS). destruct (above_reported input input [] t' x (cs ++ t_past t) W) as [A|(before & u & text & E1 & _ & R)].
    - rewrite Ep. cbn. now rewrite app_nil_r.
    - left. now rewrite (proj1 (proj1 HI')).
    - right. exists before, text, t'. rewrite Hx. auto.
  Qed.

  Lemma error_behind input p p' : parsing input p -> tokenizing input (p_scanner p) -> p_unscanned p = O -> Parse p = PErr p' ->
    astray input (p_scanner p') \/
    exists before u text t, input = before ++ text /\ rest (p_scanner p) = u ++ text /\ in_step input p' t /\ reported before text (p_sctx p') (nth 3 (t_past t) c_zero).
  Proof.
    intros H Ht Hu E. destruct (parsing_in_step HU input p H) as (t & HI). destruct (error_tape input p t p' HI E) as (t' & x & cs & HI' & Hx & Ep & W).
    pose proof HI as [(Es & El & _) _]. assert (Ea : t_ahead t = []) by (destruct (t_ahead t); [reflexivity|rewrite Hu in El; discriminate]).
    destruct (above_reported input (rest (p_scanner p)) (t_past t) t' x cs) as [A|(before & u & text & E1 & E2 & R)].
    - apply W. right. rewrite Es in *. split; [split; [exact Ht|now exists []]|]. exists []. rewrite Ea. split; [reflexivity|]. intros [|? ?] y b K; discriminate.
    - exact Ep.
    - left. now rewrite (proj1 (proj1 HI')).
    - right. exists before, u, text, t'. rewrite Hx. auto.
  Qed.

  (** ** The text of the error *)
  Lemma prefix_error fn p : (exists p', Parse p = PErr p') <-> Parse_prefix fn p <> None.
  Proof.
    unfold Parse, ParseTree, Parse_prefix. destruct (scanRune p) as [[p1 [|]]|]; [split; [discriminate|eauto]| |split; [intros [? ?]; discriminate|intros N; now elim N]].
    assert (N : forall r : parsed, match r with PErr _ => False | _ => True end -> (exists p', r = PErr p') <-> @None bytes <> None).
    { intros r Hr. split; [intros [p' E]; rewrite E in Hr; contradiction|intros K; now elim K]. }
    assert (K : forall p1, (exists p', match match unscan p1 with
            | None => PCrash
            | Some p => let '(o, p) := if p_failed p then skipStmt (parse_fuel p) p else (None, p) in
                match o with Some r => r | None => let p := set_failed p false in
                    match run (parseWhole (parse_fuel p)) p with Done s p => PStmt s p | Failed p => PErr (set_failed p (match p_tok p with KEnd => false | _ => true end)) | Crashed _ => PCrash | Stuck => PStuck end end
            end with PStmt s p => PStmt (option_map (deref_stmt (s_buffer (p_scanner p))) s) p | r => r end = PErr p') <->
        match unscan p1 with
            | None => None
            | Some p => let '(o, p) := if p_failed p then skipStmt (parse_fuel p) p else (None, p) in
                match o with Some (PErr _) => Some [] | Some _ => None | None => let p := set_failed p false in
                    match run (parseWhole (parse_fuel p)) p with Failed p => Some (errorPrefix fn (p_sctx p)) | _ => None end end
            end <> None).
    { intros p2. destruct (unscan p2) as [p3|]; [|apply N; exact Logic.I]. destruct (if p_failed p3 then _ else _) as [[r|] p4].
      - destruct r; try (apply N; exact Logic.I). split; [discriminate|eauto].
      - cbv zeta. destruct (run _ _); try (apply N; exact Logic.I). split; [discriminate|eauto]. }
    destruct (p_tok p1); try apply K. apply N. exact Logic.I.
  Qed.

  (** An error has no position, or that of the context. *)
  Lemma prefix_place fn p p' : Parse p = PErr p' -> Parse_prefix fn p = Some [] \/ Parse_prefix fn p = Some (errorPrefix fn (p_sctx p')).
  Proof.
    unfold Parse, ParseTree, Parse_prefix. intros E. destruct (scanRune p) as [[p1 [|]]|]; [now left| |discriminate].
    assert (K : match match unscan p1 with
            | None => PCrash
            | Some p => let '(o, p) := if p_failed p then skipStmt (parse_fuel p) p else (None, p) in
                match o with Some r => r | None => let p := set_failed p false in
                    match run (parseWhole (parse_fuel p)) p with Done s p => PStmt s p | Failed p => PErr (set_failed p (match p_tok p with KEnd => false | _ => true end)) | Crashed _ => PCrash | Stuck => PStuck end end
            end with PStmt s p => PStmt (option_map (deref_stmt (s_buffer (p_scanner p))) s) p | r => r end = PErr p' ->
        let o := match unscan p1 with
            | None => None
            | Some p => let '(o, p) := if p_failed p then skipStmt (parse_fuel p) p else (None, p) in
                match o with Some (PErr _) => Some [] | Some _ => None | None => let p := set_failed p false in
                    match run (parseWhole (parse_fuel p)) p with Failed p => Some (errorPrefix fn (p_sctx p)) | _ => None end end
            end in o = Some [] \/ o = Some (errorPrefix fn (p_sctx p'))).
    { clear. destruct (unscan p1) as [p3|]; [|discriminate]. destruct (if p_failed p3 then _ else _) as [[r|] p4].
      - destruct r; try discriminate. now left.
      - cbv zeta. destruct (run _ _); try discriminate. intros [= <-]. now right. }
    destruct (p_tok p1); try exact (K E). discriminate.
  Qed.

  Lemma prefix_says fn c : is_i64 (c_line c) -> is_i64 (c_column c) -> error_says fn (c_line c) (c_column c) (errorPrefix fn c).
  Proof.
    intros Hl Hc. unfold errorPrefix, positionString. destruct (0 <? c_line c) eqn:E.
    - apply Z.ltb_lt in E. pose proof (es_place fn (c_line c) (c_column c) _ _ E (LemmasCast.format_int_decimal _ Hl) (LemmasCast.format_int_decimal _ Hc)) as K.
      rewrite <- ?app_assoc in *. exact K.
    - apply Z.ltb_ge in E. apply es_unknown. lia.
  Qed.

  Lemma prefix_text fn p p' : Parse p = PErr p' -> is_i64 (c_line (p_sctx p')) -> is_i64 (c_column (p_sctx p')) ->
    exists text, Parse_prefix fn p = Some text /\ (text = [] \/ error_says fn (c_line (p_sctx p')) (c_column (p_sctx p')) text).
  Proof.
    intros E Hl Hc. destruct (prefix_place fn p p' E) as [->| ->]; eexists; (split; [reflexivity|]); [now left|right; now apply prefix_says].
  Qed.

  (** An error has no position exactly if the first token is a lexical error. *)
  Definition prefix_rest (fn : bytes) (q : parser) : option bytes :=
    match p_tok q with
    | KEOF => None
    | _ =>
        match unscan q with
        | None => None
        | Some p => let '(o, p) := if p_failed p then skipStmt (parse_fuel p) p else (None, p) in
            match o with Some (PErr _) => Some [] | Some _ => None | None => let p := set_failed p false in
                match run (parseWhole (parse_fuel p)) p with Failed p => Some (errorPrefix fn (p_sctx p)) | _ => None end end
        end
    end.

  Lemma prefix_rest_says fn q : p_failed q = false -> prefix_rest fn q <> Some [].
  Proof.
    intros H. assert (K : forall o, match unscan q with
        | None => None
        | Some p => let '(o, p) := if p_failed p then skipStmt (parse_fuel p) p else (None, p) in
            match o with Some (PErr _) => Some [] | Some _ => None | None => let p := set_failed p false in
                match run (parseWhole (parse_fuel p)) p with Failed p => Some (errorPrefix fn (p_sctx p)) | _ => None end end
        end = o -> o <> Some []).
    { intros o <-. destruct (unscan q) as [p|] eqn:E; [|discriminate].
      assert (Hp : p_failed p = false). { revert E. unfold unscan. destruct (_ <? _)%nat; [discriminate|]. intros [= <-]. exact H. }
      rewrite Hp. cbv zeta. destruct (run _ _) as [a r|r|r|]; try discriminate. }
    unfold prefix_rest. destruct (p_tok q); try exact (K _ eq_refl). discriminate.
  Qed.

  Lemma prefix_first fn p : p_failed p = false -> p_unscanned p = O ->
    Parse_prefix fn p = Some [] <-> exists s c, Scan (p_scanner p) (nth ((p_current p + 1) mod 3) (p_lookBack p) c_zero) = Some (s, c) /\ tok_of c = KError true.
  Proof.
    intros Hf Hu.
    assert (E : Parse_prefix fn p = match scanRune p with None => None | Some (_, true) => Some [] | Some (q, false) => prefix_rest fn q end) by reflexivity.
    rewrite E. unfold scanRune. rewrite Hu, Hf. change lookBackAmount with 3%nat. cbv zeta.
    destruct (Scan _ _) as [[s c]|]; [|split; [discriminate|intros (s & c & K & _); discriminate K]].
    split.
    - intros K. exists s, c. split; [reflexivity|]. destruct (tok_of c) as [| |[|]| | | | | | | |]; try reflexivity; exfalso; revert K; now apply prefix_rest_says.
    - intros (s' & c' & [= <- <-] & ->). reflexivity.
  Qed.

  (** An error without a position is a lexical one. *)
  Lemma ring_next p q e : length (p_lookBack p) = 3%nat -> scanRune p = Some (q, e) -> length (p_lookBack q) = 3%nat /\ (e = true -> p_tok q = KError true).
  Proof.
    unfold scanRune. intros H. assert (Hk : ((p_current p + 1) mod lookBackAmount < 3)%nat) by (apply Nat.mod_upper_bound; discriminate).
    revert Hk. generalize ((p_current p + 1) mod lookBackAmount)%nat. intros k Hk. destruct (p_unscanned p).
    - destruct (Scan _ _) as [[s c]|]; [|discriminate]. intros [= <- E]. unfold p_tok, p_sctx. cbn [p_current p_lookBack].
      assert (K : length (ModelParser.set_nth k c (p_lookBack p)) = 3%nat /\ nth k (ModelParser.set_nth k c (p_lookBack p)) c_zero = c).
      { destruct (p_lookBack p) as [|x [|y [|z [|w l]]]]; try discriminate. destruct k as [|[|[|k]]]; try lia; now split. }
      destruct K as [K1 K2]. split; [exact K1|]. rewrite K2. intros ->. destruct (tok_of c) as [| |[|]| | | | | | | |]; now try discriminate.
    - intros [= <- <-]. split; [exact H|discriminate].
  Qed.

  Lemma ring_skip n : forall p q, length (p_lookBack p) = 3%nat -> fst (skipStmt n p) = Some (PErr q) -> p_tok q = KError true.
  Proof.
    induction n as [|n IH]; intros p q H; cbn [skipStmt]; [discriminate|]. destruct (scanRune p) as [[p1 e]|] eqn:E; [|discriminate]. destruct (ring_next _ _ _ H E) as [H1 H2].
    destruct e; [intros [= <-]; now apply H2|]. destruct (p_tok p1); try discriminate; now apply IH.
  Qed.

  Lemma prefix_bare input fn p p' : parsing input p -> Parse p = PErr p' -> Parse_prefix fn p = Some [] -> p_tok p' = KError true.
  Proof.
    intros HP. destruct (parsing_in_step HU input p HP) as (t & (_ & _ & _ & Hl & _) & _).
    unfold Parse, ParseTree, Parse_prefix. destruct (scanRune p) as [[p1 e]|] eqn:E; [|discriminate]. destruct (ring_next _ _ _ Hl E) as [H1 H2]. destruct e; [intros [= <-] _; now apply H2|].
    assert (K : match match unscan p1 with
            | None => PCrash
            | Some p => let '(o, p) := if p_failed p then skipStmt (parse_fuel p) p else (None, p) in
                match o with Some r => r | None => let p := set_failed p false in
                    match run (parseWhole (parse_fuel p)) p with Done s p => PStmt s p | Failed p => PErr (set_failed p (match p_tok p with KEnd => false | _ => true end)) | Crashed _ => PCrash | Stuck => PStuck end end
            end with PStmt s p => PStmt (option_map (deref_stmt (s_buffer (p_scanner p))) s) p | r => r end = PErr p' ->
        match unscan p1 with
            | None => None
            | Some p => let '(o, p) := if p_failed p then skipStmt (parse_fuel p) p else (None, p) in
                match o with Some (PErr _) => Some [] | Some _ => None | None => let p := set_failed p false in
                    match run (parseWhole (parse_fuel p)) p with Failed p => Some (errorPrefix fn (p_sctx p)) | _ => None end end
            end = Some [] -> p_tok p' = KError true).
    { clear E H2. destruct (unscan p1) as [p3|] eqn:E3; [|discriminate].
      assert (H3 : length (p_lookBack p3) = 3%nat). { revert E3. unfold unscan. destruct (_ <? _)%nat; [discriminate|]. now intros [= <-]. }
      destruct (p_failed p3).
      - pose proof (ring_skip (parse_fuel p3) p3) as S. destruct (skipStmt (parse_fuel p3) p3) as [[r|] p4].
        + destruct r; intros [= <-] _; now apply S.
        + cbv zeta. destruct (run _ _); discriminate.
      - cbv zeta. destruct (run _ _); discriminate. }
    destruct (p_tok p1); try exact K. discriminate.
  Qed.
End Place.
