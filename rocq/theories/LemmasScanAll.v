(** [Scan] and scanning a whole text. *)

From Verif Require Import ModelScanner SpecScanner LemmasBase LemmasValue LemmasScanner LemmasScanText LemmasScanWords LemmasScanTokens LemmasScan.

Section All.
  Context {X : FloatLib} {L : CaseLib} {U : RuneLib} {B : BufLib}.
  Context (HU : RuneLib_scan U).

  Lemma gap_spaces sp g : Forall space sp -> gap g -> gap (sp ++ g).
  Proof. induction 1; [easy|]. intros G. cbn. constructor; auto. Qed.

  Lemma gap_app g h : gap g -> gap h -> gap (g ++ h).
  Proof.
    induction 1 as [|r w Hr Hw IH|u w Hu Hw IH|u w Hu Hw IH]; intros G; cbn [app].
    - exact G.
    - constructor; auto.
    - rewrite <- app_assoc. apply (gap_line u (w ++ h)); auto.
    - rewrite <- app_assoc. apply (gap_block u (w ++ h)); auto.
  Qed.

  (** ** What [scan] returns *)

  Definition result (l : list Z) (t : idtable) (s' : scanner) (c' : sctx) (tk : Z) (l' : list Z) : Prop :=
    (tk = -1 /\ l' = [] /\ s_ids s' = t /\ exists g e, l = g ++ e /\ gap g /\ no_token e) \/
    (tk = -3 /\ s_ids s' = t /\ (length l' < length l)%nat /\ (c_error c' <> None \/ bad_escape l)) \/
    (exists g w f v, l = g ++ w ++ f /\ gap g /\ lexeme w v f l' /\ holds t v s' (set_token c' tk)).

  Lemma result_gap g l t s' c' tk l' : gap g -> result l t s' c' tk l' -> result (g ++ l) t s' c' tk l'.
  Proof.
    intros G [(-> & -> & T & g' & e & -> & G' & N)|[(-> & T & Hl & D)|(g' & w & f & v & -> & G' & Hx & Hh)]].
    - left. repeat split; auto. exists (g ++ g'), e. split; [apply app_assoc|]. split; [now apply gap_app|exact N].
    - right. left. repeat split; auto; [rewrite app_length; lia|]. destruct D; [now left|right; now apply bad_escape_app].
    - right. right. exists (g ++ g'), w, f, v. split; [apply app_assoc|]. split; [now apply gap_app|]. now split.
  Qed.

  Lemma at_pos s l u t : at_ s l u t -> Forall (fun r => 0 <= r) l.
  Proof.
    intros ((F & _) & R & _). subst l. unfold rest. apply Forall_app. split; [|exact F].
    destruct (s_unread s); [|constructor]. destruct (Z.ltb_spec (s_read s) 0); [constructor|]. now constructor.
  Qed.

  Definition scan_result (l : list Z) (t : idtable) (o : scanned) : Prop :=
    exists s' c' tk l' u', o = Some (s', c', tk) /\ at_ s' l' u' (s_ids s') /\ suffix l' l /\ result l t s' c' tk l'.

  Lemma scan_result_gap g l t o : gap g -> scan_result l t o -> scan_result (g ++ l) t o.
  Proof.
    intros G (s' & c' & tk & l' & u' & A1 & A2 & A3 & A4). exists s', c', tk, l', u'. split; [exact A1|]. split; [exact A2|].
    split; [now apply suffix_app|now apply result_gap].
  Qed.

  Lemma scan_result_outcome r l t o : outcome [r] l t o -> scan_result (r :: l) t o.
  Proof.
    intros (s' & c' & tk & l' & u' & A1 & A2 & A3 & A4). exists s', c', tk, l', u'. split; [exact A1|]. split; [exact A2|].
    split; [now apply suffix_cons|]. right. destruct A4 as [(-> & D1 & D2)|(w & f & v & -> & D1 & D2)].
    - left. split; [reflexivity|]. split; [exact D1|]. split; [apply suffix_length in A3; cbn; lia|]. destruct D2; [now left|right; now apply bad_escape_cons].
    - right. exists [], (r :: w), f, v. split; [reflexivity|]. split; [constructor|]. now split.
  Qed.

  Lemma scan_result_none s c l t u : at_ s [] u t -> no_token l -> scan_result l t (Some (s, c, -1)).
  Proof.
    intros H N. exists s, c, (-1), [], u. split; [reflexivity|]. rewrite (at_ids_eq _ _ _ _ H). split; [exact H|].
    split; [exists l; now rewrite app_nil_r|]. left. split; [reflexivity|]. split; [reflexivity|]. split; [exact (at_ids_eq _ _ _ _ H)|].
    exists [], l. split; [reflexivity|]. now split; [constructor|].
  Qed.

  Lemma scan_any fuel : forall s c l t, (length l + 2 < fuel)%nat -> at_ s l [] t -> scan_result l t (scan fuel s c).
  Proof.
    induction fuel as [|fuel IH]; intros s c l t Hf H; [lia|]. cbn [scan].
    destruct (skipWhitespace_spec (S fuel) s l [] t ltac:(lia) H) as (s1 & E & H1). rewrite E.
    destruct (span_spec x_is_space l) as (I1 & I2 & I3). destruct (span x_is_space l) as [sp l1]. cbn [fst snd] in *.
    assert (G : gap sp) by (rewrite <- (app_nil_r sp); apply gap_spaces; [exact I2|constructor]).
    pose proof (at_pos _ _ _ _ H) as Pl. rewrite I1 in Pl. apply Forall_app in Pl. destruct Pl as [_ Pl].
    rewrite I1. apply scan_result_gap; [exact G|].
    assert (Hl1 : (length l1 + 2 < S fuel)%nat) by (rewrite I1, app_length in Hf; lia). clear I1 I2 G H E Hf l sp.
    destruct l1 as [|r l].
    { cbn [hd_rune tl] in *. change (-1 <? 0) with true. cbv match. eapply scan_result_none; [exact H1|constructor]. }
    cbn [hd_rune tl length] in *. inversion Pl as [|? ? Hr Pl']; subst. destruct (Z.ltb_spec r 0); [lia|].
    destruct (Z.eqb_spec r 59) as [->|N59].
    { exists s1, c, (-2), l, []. split; [reflexivity|]. rewrite (at_ids_eq _ _ _ _ H1). split; [exact H1|]. split; [apply suffix_cons, suffix_refl|].
      right. right. exists [], [59], l, TEnd. split; [reflexivity|]. split; [constructor|]. split; [constructor|]. split; [reflexivity|exact (at_ids_eq _ _ _ _ H1)]. }
    cbn [no_start] in I3. assert (Sp : x_is_space r = false) by now destruct (x_is_space r).
    unfold comments. destruct (Z.eqb_spec r 45) as [->|N45].
    { destruct l as [|x l].
      - destruct (read_nil _ _ _ H1) as (s2 & R & H2 & _). rewrite R. cbn. eapply scan_result_none; [exact H2|constructor].
      - destruct (read_cons _ _ _ _ _ H1) as (s2 & R & H2 & H3 & Hx). rewrite R. cbn [length] in *. destruct (Z.eqb_spec x 45) as [->|Nx].
        + destruct (lineComment_spec (S fuel) s2 l [] t ltac:(lia) H2) as (s3 & H4 & E3). rewrite E3.
          destruct (span_spec (fun r => negb (r =? 10)) l) as (J1 & J2 & J3). destruct (span _ l) as [u l2]. cbn [fst snd] in *.
          assert (N10 : ~ In 10 u). { intros I. rewrite Forall_forall in J2. specialize (J2 10 I). discriminate. }
          subst l. destruct l2 as [|y l2].
          * cbn [tl] in H4. eapply scan_result_none; [exact H4|]. rewrite app_nil_r. now apply (nt_line u).
          * assert (y = 10) as ->. { cbn in J3. destruct (Z.eqb_spec y 10); [assumption|]. now elim J3. }
            cbn [tl] in H4. replace (45 :: 45 :: u ++ 10 :: l2) with (([45; 45] ++ u ++ [10] ++ []) ++ l2) by (cbn [app]; rewrite <- app_assoc; reflexivity).
            apply scan_result_gap; [apply gap_line; [exact N10|constructor]|]. apply IH; [rewrite app_length in Hl1; cbn in Hl1; lia|exact H4].
        + destruct (Z.ltb_spec x 0); [lia|]. apply scan_result_outcome. apply (scanToken_out HU); [|cbn [length]; lia|exact H3].
          repeat split; auto; [|intros; lia]. intros _. now exists x, l. }
    destruct (Z.eqb_spec r 47) as [->|N47].
    { destruct l as [|x l].
      - destruct (read_nil _ _ _ H1) as (s2 & R & H2 & _). rewrite R. cbn. eapply scan_result_none; [exact H2|constructor].
      - destruct (read_cons _ _ _ _ _ H1) as (s2 & R & H2 & H3 & Hx). rewrite R. cbn [length] in *. destruct (Z.eqb_spec x 42) as [->|Nx].
        + destruct (blockComment_spec (S fuel) s2 0 l [] t ltac:(lia) H2) as (s3 & D). destruct (block_span 0 l) as [l2|] eqn:Bs; destruct D as [H4 E3]; rewrite E3.
          * apply block_span_some in Bs; [|lia]. destruct Bs as (u & -> & Nu).
            replace (47 :: 42 :: u ++ [42; 47] ++ l2) with (([47; 42] ++ u ++ [42; 47] ++ []) ++ l2) by (cbn [app]; rewrite <- app_assoc; reflexivity).
            apply scan_result_gap; [apply gap_block; [exact Nu|constructor]|]. apply IH; [rewrite !app_length in Hl1; cbn in Hl1; lia|exact H4].
          * apply block_span_none in Bs; [|lia]. eapply scan_result_none; [exact H4|]. now apply (nt_block l).
        + destruct (Z.ltb_spec x 0); [lia|]. apply scan_result_outcome. apply (scanToken_out HU); [|cbn [length]; lia|exact H3].
          repeat split; auto; [intros; lia|]. intros _. now exists x, l. }
    apply scan_result_outcome. apply (scanToken_out HU); [|cbn [length]; lia|exact H1].
    repeat split; auto; intros; lia.
  Qed.

  (** ** Every word is recognised *)

  Lemma gap_decomp g : gap g -> exists sp, Forall space sp /\
    (g = sp \/ (exists u g', g = sp ++ [45; 45] ++ u ++ [10] ++ g' /\ ~ In 10 u /\ gap g') \/
     (exists u g', g = sp ++ [47; 42] ++ u ++ [42; 47] ++ g' /\ ~ has [42; 47] (u ++ [42]) /\ gap g')).
  Proof.
    induction 1 as [|r w Hr Hw (sp & F & D)|u w Hu Hw IH|u w Hu Hw IH].
    - exists []. split; [constructor|now left].
    - exists (r :: sp). split; [now constructor|]. destruct D as [->|[(u & g' & -> & D)|(u & g' & -> & D)]].
      + now left.
      + right. left. now exists u, g'.
      + right. right. now exists u, g'.
    - exists []. split; [constructor|]. right. left. now exists u, w.
    - exists []. split; [constructor|]. right. right. now exists u, w.
  Qed.

  Lemma space_first r : In r [45; 47; 59] -> x_is_space r = false.
  Proof.
    intros I. destruct (x_is_space r) eqn:E; [|reflexivity]. assert (0 <= r < 128) by (cbn in I; lia). apply (space_ascii HU) in E; [|assumption]. cbn in I. lia.
  Qed.

  Lemma lexeme_suffix w v f l : lexeme w v f l -> suffix l f.
  Proof. destruct 1; try apply suffix_refl; now apply quote_ends_suffix. Qed.

  Lemma scan_some fuel : forall g s c w v f l t, gap g -> lexeme w v f l -> (length (g ++ w ++ f) + 2 < fuel)%nat -> at_ s (g ++ w ++ f) [] t ->
    exists s' c' tk u', scan fuel s c = Some (s', c', tk) /\ at_ s' l u' (s_ids s') /\ holds t v s' (set_token c' tk).
  Proof.
    induction fuel as [|fuel IH]; intros g s c w v f l t G Hx Hf H; [lia|]. cbn [scan].
    pose proof (at_pos _ _ _ _ H) as Pl. apply Forall_app in Pl. destruct Pl as [_ Pl]. apply Forall_app in Pl. destruct Pl as [Pw Pf].
    destruct (skipWhitespace_spec (S fuel) s (g ++ w ++ f) [] t ltac:(lia) H) as (s1 & E & H1). rewrite E. clear E.
    destruct (gap_decomp g G) as (sp & F & D). destruct D as [->|[(u & g' & -> & Hu & G')|(u & g' & -> & Hu & G')]].
    - assert (Dv : v = TEnd \/ v <> TEnd) by (destruct v; (now left) || (now right)). destruct Dv as [->|Nv].
      + inversion Hx; subst. rewrite (span_app x_is_space sp) in H1 by (assumption || (cbn; rewrite space_first by (cbn; tauto); discriminate)).
        rewrite (span_app x_is_space sp) by (assumption || (cbn; rewrite space_first by (cbn; tauto); discriminate)).
        cbn [fst snd app hd_rune tl] in *. change (59 <? 0) with false. change (59 =? 59) with true. cbv match.
        exists s1, c, (-2), []. split; [reflexivity|]. rewrite (at_ids_eq _ _ _ _ H1). split; [exact H1|]. split; [reflexivity|exact (at_ids_eq _ _ _ _ H1)].
      + destruct (lexeme_first HU w v f l Hx Pw Nv) as (r & w' & -> & Hr). destruct Hr as (R1 & R2 & R3 & R4 & R5).
        rewrite (span_app x_is_space sp) in H1 by (assumption || (cbn; rewrite R2; discriminate)).
        rewrite (span_app x_is_space sp) by (assumption || (cbn; rewrite R2; discriminate)).
        cbn [fst snd app hd_rune tl] in *. destruct (Z.ltb_spec r 0); [lia|]. destruct (Z.eqb_spec r 59); [contradiction|].
        assert (Hlen : (length w' + length f + 2 < S fuel)%nat) by (rewrite app_length in Hf; cbn in Hf; rewrite app_length in Hf; lia).
        unfold comments. destruct (Z.eqb_spec r 45) as [->|N45].
        { destruct (R4 eq_refl) as (x & l' & E & Nx). rewrite E in H1. destruct (read_cons _ _ _ _ _ H1) as (s2 & R & H2 & H3 & Hp). rewrite R.
          destruct (Z.eqb_spec x 45); [contradiction|]. destruct (Z.ltb_spec x 0); [lia|]. rewrite <- E in H3. now apply (scanToken_some HU) with (w := w') (f := f). }
        destruct (Z.eqb_spec r 47) as [->|N47].
        { destruct (R5 eq_refl) as (x & l' & E & Nx). rewrite E in H1. destruct (read_cons _ _ _ _ _ H1) as (s2 & R & H2 & H3 & Hp). rewrite R.
          destruct (Z.eqb_spec x 42); [contradiction|]. destruct (Z.ltb_spec x 0); [lia|]. rewrite <- E in H3. now apply (scanToken_some HU) with (w := w') (f := f). }
        now apply (scanToken_some HU) with (w := w') (f := f).
    - rewrite <- app_assoc in *. rewrite (span_app x_is_space sp) in H1 by (assumption || (cbn; rewrite space_first by (cbn; tauto); discriminate)).
      rewrite (span_app x_is_space sp) by (assumption || (cbn; rewrite space_first by (cbn; tauto); discriminate)).
      cbn [fst snd app hd_rune tl] in *. change (45 <? 0) with false. change (45 =? 59) with false. cbv match. unfold comments. cbn [Z.eqb Pos.eqb].
      destruct (read_cons _ _ _ _ _ H1) as (s2 & R & H2 & H3 & Hp). rewrite R. cbn [Z.eqb Pos.eqb].
      rewrite <- app_assoc in *. cbn [app] in *.
      assert (Hlen : (length (u ++ 10%Z :: g' ++ w ++ f) + 2 < fuel)%nat) by (rewrite app_length in Hf; cbn [length] in Hf; lia).
      destruct (lineComment_spec (S fuel) s2 (u ++ 10 :: g' ++ w ++ f) [] t ltac:(lia) H2) as (s3 & H4 & E3). rewrite E3.
      assert (Sp : span (fun r => negb (r =? 10)) (u ++ 10 :: g' ++ w ++ f) = (u, 10 :: g' ++ w ++ f)).
      { apply span_app; [|cbn; discriminate]. apply Forall_forall. intros x Hx'. apply Bool.negb_true_iff, Z.eqb_neq. intros ->. contradiction. }
      rewrite Sp in *. cbn [fst snd tl] in *. apply (IH g' s3 c w v f l t G' Hx); [rewrite app_length in Hlen; cbn in Hlen; lia|exact H4].
    - rewrite <- app_assoc in *. rewrite (span_app x_is_space sp) in H1 by (assumption || (cbn; rewrite space_first by (cbn; tauto); discriminate)).
      rewrite (span_app x_is_space sp) by (assumption || (cbn; rewrite space_first by (cbn; tauto); discriminate)).
      cbn [fst snd app hd_rune tl] in *. change (47 <? 0) with false. change (47 =? 59) with false. cbv match. unfold comments. cbn [Z.eqb Pos.eqb].
      destruct (read_cons _ _ _ _ _ H1) as (s2 & R & H2 & H3 & Hp). rewrite R. cbn [Z.eqb Pos.eqb].
      rewrite <- app_assoc in *. cbn [app] in *.
      assert (Hlen : (length (u ++ 42%Z :: 47%Z :: g' ++ w ++ f) + 2 < fuel)%nat) by (rewrite app_length in Hf; cbn [length] in Hf; lia).
      destruct (blockComment_spec (S fuel) s2 0 (u ++ 42 :: 47 :: g' ++ w ++ f) [] t ltac:(lia) H2) as (s3 & D).
      change (u ++ 42 :: 47 :: g' ++ w ++ f) with (u ++ [42; 47] ++ g' ++ w ++ f) in D.
      rewrite (proj2 (block_span_some 0 (u ++ [42; 47] ++ g' ++ w ++ f) (g' ++ w ++ f) ltac:(lia)) ltac:(now exists u)) in D. destruct D as [H4 E3]. rewrite E3.
      apply (IH g' s3 c w v f l t G' Hx); [rewrite app_length in Hlen; cbn in Hlen; lia|exact H4].
  Qed.

  Lemma scan_none fuel : forall g e s c t, gap g -> no_token e -> (length (g ++ e) + 2 < fuel)%nat -> at_ s (g ++ e) [] t ->
    exists s' u', scan fuel s c = Some (s', c, -1) /\ at_ s' [] u' t.
  Proof.
    induction fuel as [|fuel IH]; intros g e s c t G Ne Hf H; [lia|]. cbn [scan].
    destruct (skipWhitespace_spec (S fuel) s (g ++ e) [] t ltac:(lia) H) as (s1 & E & H1). rewrite E. clear E.
    destruct (gap_decomp g G) as (sp & F & D). destruct D as [->|[(u & g' & -> & Hu & G')|(u & g' & -> & Hu & G')]].
    - assert (Sp : span x_is_space (sp ++ e) = (sp, e)).
      { apply span_app; [exact F|]. destruct Ne; cbn; try exact Logic.I; rewrite space_first by (cbn; tauto); discriminate. }
      rewrite Sp in *. cbn [fst snd] in *. rewrite app_length in Hf. destruct Ne as [|u Hu|u Hu| |]; cbn [app hd_rune tl length] in *.
      + exists s1, []. now split.
      + change (45 <? 0) with false. change (45 =? 59) with false. cbv match. unfold comments. cbn [Z.eqb Pos.eqb].
        destruct (read_cons _ _ _ _ _ H1) as (s2 & R & H2 & H3 & Hp). rewrite R. cbn [Z.eqb Pos.eqb].
        destruct (lineComment_spec (S fuel) s2 u [] t ltac:(lia) H2) as (s3 & H4 & E3). rewrite E3.
        assert (Su : span (fun r => negb (r =? 10)) u = (u, [])).
        { rewrite <- (app_nil_r u) at 1. apply span_app; [|exact Logic.I]. apply Forall_forall. intros x Hx'. apply Bool.negb_true_iff, Z.eqb_neq. intros ->. contradiction. }
        rewrite Su in *. cbn [fst snd tl] in *. exists s3, []. now split.
      + change (47 <? 0) with false. change (47 =? 59) with false. cbv match. unfold comments. cbn [Z.eqb Pos.eqb].
        destruct (read_cons _ _ _ _ _ H1) as (s2 & R & H2 & H3 & Hp). rewrite R. cbn [Z.eqb Pos.eqb].
        destruct (blockComment_spec (S fuel) s2 0 u [] t ltac:(lia) H2) as (s3 & D).
        assert (block_span 0 u = None) as Bn by (apply block_span_none; [lia|exact Hu]). rewrite Bn in D. destruct D as [H4 E3]. rewrite E3. exists s3, []. now split.
      + change (45 <? 0) with false. change (45 =? 59) with false. cbv match. unfold comments. cbn [Z.eqb Pos.eqb].
        destruct (read_nil _ _ _ H1) as (s2 & R & H2 & _). rewrite R. cbn. exists s2, []. now split.
      + change (47 <? 0) with false. change (47 =? 59) with false. cbv match. unfold comments. cbn [Z.eqb Pos.eqb].
        destruct (read_nil _ _ _ H1) as (s2 & R & H2 & _). rewrite R. cbn. exists s2, []. now split.
    - rewrite <- app_assoc in *. rewrite (span_app x_is_space sp) in H1 by (assumption || (cbn; rewrite space_first by (cbn; tauto); discriminate)).
      rewrite (span_app x_is_space sp) by (assumption || (cbn; rewrite space_first by (cbn; tauto); discriminate)).
      cbn [fst snd app hd_rune tl] in *. change (45 <? 0) with false. change (45 =? 59) with false. cbv match. unfold comments. cbn [Z.eqb Pos.eqb].
      destruct (read_cons _ _ _ _ _ H1) as (s2 & R & H2 & H3 & Hp). rewrite R. cbn [Z.eqb Pos.eqb].
      rewrite <- app_assoc in *. cbn [app] in *.
      assert (Hlen : (length (u ++ 10%Z :: g' ++ e) + 2 < fuel)%nat) by (rewrite app_length in Hf; cbn [length] in Hf; lia).
      destruct (lineComment_spec (S fuel) s2 (u ++ 10 :: g' ++ e) [] t ltac:(lia) H2) as (s3 & H4 & E3). rewrite E3.
      assert (Sp : span (fun r => negb (r =? 10)) (u ++ 10 :: g' ++ e) = (u, 10 :: g' ++ e)).
      { apply span_app; [|cbn; discriminate]. apply Forall_forall. intros x Hx'. apply Bool.negb_true_iff, Z.eqb_neq. intros ->. contradiction. }
      rewrite Sp in *. cbn [fst snd tl] in *. apply (IH g' e s3 c t G' Ne); [rewrite app_length in Hlen; cbn in Hlen; lia|exact H4].
    - rewrite <- app_assoc in *. rewrite (span_app x_is_space sp) in H1 by (assumption || (cbn; rewrite space_first by (cbn; tauto); discriminate)).
      rewrite (span_app x_is_space sp) by (assumption || (cbn; rewrite space_first by (cbn; tauto); discriminate)).
      cbn [fst snd app hd_rune tl] in *. change (47 <? 0) with false. change (47 =? 59) with false. cbv match. unfold comments. cbn [Z.eqb Pos.eqb].
      destruct (read_cons _ _ _ _ _ H1) as (s2 & R & H2 & H3 & Hp). rewrite R. cbn [Z.eqb Pos.eqb].
      rewrite <- app_assoc in *. cbn [app] in *.
      assert (Hlen : (length (u ++ 42%Z :: 47%Z :: g' ++ e) + 2 < fuel)%nat) by (rewrite app_length in Hf; cbn [length] in Hf; lia).
      destruct (blockComment_spec (S fuel) s2 0 (u ++ 42 :: 47 :: g' ++ e) [] t ltac:(lia) H2) as (s3 & D).
      change (u ++ 42 :: 47 :: g' ++ e) with (u ++ [42; 47] ++ g' ++ e) in D.
      rewrite (proj2 (block_span_some 0 (u ++ [42; 47] ++ g' ++ e) (g' ++ e) ltac:(lia)) ltac:(now exists u)) in D. destruct D as [H4 E3]. rewrite E3.
      apply (IH g' e s3 c t G' Ne); [rewrite app_length in Hlen; cbn in Hlen; lia|exact H4].
  Qed.

  (** ** [Scan] *)

  Lemma rest_length s : (length (rest s) <= 1 + length (s_in s))%nat.
  Proof. unfold rest. rewrite app_length. destruct (s_unread s), (s_read s <? 0); cbn; lia. Qed.

  Lemma Scan_any s c : sane s -> exists s' c' u', Scan s c = Some (s', c') /\ at_ s' (rest s') u' (s_ids s') /\ suffix (rest s') (rest s) /\
    result (rest s) (s_ids s) s' c' (c_token c') (rest s').
  Proof.
    intros Hs. pose proof (at_reset _ _ _ _ (at_self s Hs)) as H. unfold Scan, ScanFuel, scan_fuel. pose proof (rest_length s).
    destruct (scan_any (4 + length (s_in s)) _ c (rest s) _ ltac:(lia) H) as (s' & c' & tk & l' & u' & E & H1 & S1 & R). rewrite E.
    assert (l' = rest s') as -> by now destruct H1 as (_ & -> & _).
    exists s', (set_token c' tk), u'. split; [reflexivity|]. split; [exact H1|]. split; [exact S1|].
    destruct R as [R|[R|(g & w & f & v & R1 & R2 & R3 & R4)]].
    - left. exact R.
    - right. left. exact R.
    - right. right. exists g, w, f, v. repeat split; auto.
  Qed.

  Lemma Scan_some s c g w v f l : sane s -> rest s = g ++ w ++ f -> gap g -> lexeme w v f l ->
    exists s' c' u', Scan s c = Some (s', c') /\ at_ s' l u' (s_ids s') /\ holds (s_ids s) v s' c'.
  Proof.
    intros Hs Hr G Hx. pose proof (at_reset _ _ _ _ (at_self s Hs)) as H. unfold Scan, ScanFuel, scan_fuel. pose proof (rest_length s). rewrite Hr in *.
    destruct (scan_some (4 + length (s_in s)) g _ c w v f l _ G Hx ltac:(lia) H) as (s' & c' & tk & u' & E & H1 & R). rewrite E.
    exists s', (set_token c' tk), u'. split; [reflexivity|]. now split.
  Qed.

  Lemma Scan_none s c g e : sane s -> rest s = g ++ e -> gap g -> no_token e ->
    exists s', Scan s c = Some (s', set_token c (-1)) /\ rest s' = [] /\ s_ids s' = s_ids s.
  Proof.
    intros Hs Hr G Ne. pose proof (at_reset _ _ _ _ (at_self s Hs)) as H. unfold Scan, ScanFuel, scan_fuel. pose proof (rest_length s). rewrite Hr in *.
    destruct (scan_none (4 + length (s_in s)) g e _ c _ G Ne ltac:(lia) H) as (s' & u' & E & H1). rewrite E.
    exists s'. split; [reflexivity|]. destruct H1 as (_ & R & _ & T). now split.
  Qed.
End All.
