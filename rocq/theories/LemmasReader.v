(** Proofs for property C68: the scanner does what ModelScanner.v says until a read
    fails. *)

From Verif Require Import ModelScanner ModelReader SpecScanner SpecReader LemmasBase LemmasScanner LemmasScan LemmasScanAll.

Section Reader.
  Context {X : FloatLib} {L : CaseLib} {U : RuneLib} {B : BufLib} (HU : RuneLib_scan U).

  Lemma not_space r : r < 0 -> x_is_space r = false.
  Proof. intros H. destruct (x_is_space r) eqn:E; [|reflexivity]. destruct HU as (_ & K & _). specialize (K r). lia. Qed.
  Lemma not_digit r : r < 0 -> x_is_digit r = false.
  Proof. intros H. destruct (x_is_digit r) eqn:E; [|reflexivity]. destruct HU as (_ & K & _). specialize (K r). lia. Qed.
  Lemma not_letter r : r < 0 -> x_is_letter r = false.
  Proof. intros H. destruct (x_is_letter r) eqn:E; [|reflexivity]. destruct HU as (_ & K & _). specialize (K r). lia. Qed.
  Lemma zero_plain : x_is_space 0 = false /\ x_is_letter 0 = false /\ x_is_digit 0 = false.
  Proof.
    destruct HU as (K & _). destruct (K 0 ltac:(lia)) as (K1 & K2 & K3). repeat split.
    - destruct (x_is_space 0); [|reflexivity]. destruct (proj1 K3 eq_refl); lia.
    - destruct (x_is_letter 0); [|reflexivity]. destruct (proj1 K1 eq_refl); lia.
    - destruct (x_is_digit 0); [|reflexivity]. pose proof (proj1 K2 eq_refl). lia.
  Qed.

  (** ** More fuel *)
  Ltac more F := let g := fresh "g" in let Eg := fresh "Eg" in let H := fresh "H" in
    intros H; match goal with IH : context [S ?n] |- _ => remember (S n) as g eqn:Eg end; rewrite Eg in H; cbn [F] in H |- *.
  Ltac cases := repeat match goal with
    | H : context [let '(_, _) := ?e in _] |- _ => destruct e
    | H : context [if ?b then _ else _] |- _ => destruct b
    end.

  Lemma identifierLoop_more n : forall s r x, identifierLoop n s r = Some x -> identifierLoop (S n) s r = Some x.
  Proof. induction n as [|n IH]; intros s r x; [discriminate|]. more (@identifierLoop). cases; auto. Qed.
  Lemma numberLoop_more n : forall s d r x, numberLoop n s d r = Some x -> numberLoop (S n) s d r = Some x.
  Proof. induction n as [|n IH]; intros s d r x; [discriminate|]. more (@numberLoop). cases; auto. Qed.
  Lemma parameterLoop_more n : forall s r x, parameterLoop n s r = Some x -> parameterLoop (S n) s r = Some x.
  Proof. induction n as [|n IH]; intros s r x; [discriminate|]. more (@parameterLoop). cases; auto. Qed.
  Lemma quotedIdentifierLoop_more n : forall s r x, quotedIdentifierLoop n s r = Some x -> quotedIdentifierLoop (S n) s r = Some x.
  Proof. induction n as [|n IH]; intros s r x; [discriminate|]. more (@quotedIdentifierLoop). cases; auto. Qed.
  Lemma quoteSpace_more n : forall s r nl x, quoteSpace n s r nl = Some x -> quoteSpace (S n) s r nl = Some x.
  Proof. induction n as [|n IH]; intros s r nl x; [discriminate|]. more (@quoteSpace). destruct (x_is_space r); [|exact H]. destruct (readRune s). auto. Qed.
  Lemma skipWhitespace_more n : forall s x, skipWhitespace n s = Some x -> skipWhitespace (S n) s = Some x.
  Proof. induction n as [|n IH]; intros s x; [discriminate|]. more (@skipWhitespace). cases; auto. Qed.
  Lemma lineComment_more n : forall s x, lineComment n s = Some x -> lineComment (S n) s = Some x.
  Proof. induction n as [|n IH]; intros s x; [discriminate|]. more (@lineComment). cases; auto. Qed.
  Lemma blockComment_more n : forall s p x, blockComment n s p = Some x -> blockComment (S n) s p = Some x.
  Proof. induction n as [|n IH]; intros s p x; [discriminate|]. more (@blockComment). cases; auto. Qed.
  Lemma scanHexBytes_more n : forall s c x, scanHexBytes n s c = Some x -> scanHexBytes (S n) s c = Some x.
  Proof.
    induction n as [|n IH]; intros s c x; [discriminate|]. more (@scanHexBytes). destruct (readRune s) as [r s1]. destruct (r =? tEOF); [auto|]. destruct (r =? tError); [auto|]. destruct (r =? 39); [auto|].
    destruct (scanHexDigit (unreadRune s1) c) as [[s2 c2] [d|]]; [|exact H]. destruct (scanHexDigit s2 c2) as [[s3 c3] [d3|]]; [|exact H]. auto.
  Qed.
  Lemma scanQuotedConstant_more n : forall s c e x, scanQuotedConstant n s c e = Some x -> scanQuotedConstant (S n) s c e = Some x.
  Proof.
    induction n as [|n IH]; intros s c e x; [discriminate|]. intros H. remember (S n) as g eqn:Eg.
    assert (Q : forall s r nl x, quoteSpace g s r nl = Some x -> quoteSpace (S g) s r nl = Some x) by (intros; now apply quoteSpace_more).
    revert H. rewrite Eg at 1. cbn [scanQuotedConstant]. rewrite <- Eg. destruct (readRune s) as [r s1]. destruct (r =? tEOF); [auto|]. destruct (r =? tError); [auto|].
    assert (K : forall s r, (match quotedRune s c e r with (s, c, None) => Some (s, c, tError) | (s, c, Some r) => scanQuotedConstant n (writeRune s r) c e end) = Some x ->
      (match quotedRune s c e r with (s, c, None) => Some (s, c, tError) | (s, c, Some r) => scanQuotedConstant g (writeRune s r) c e end) = Some x).
    { intros s2 r2. destruct (quotedRune s2 c e r2) as [[s3 c3] [r3|]]; auto. }
    destruct (r =? 39); [|now apply K]. destruct (readRune s1) as [r2 s2]. destruct (x_is_space r2).
    - destruct (quoteSpace g s2 r2 false) as [[[s3 r3] nl]|] eqn:E3; [|discriminate]. rewrite (Q _ _ _ _ E3). destruct (_ && _); [apply IH|auto].
    - destruct (negb _); [auto|now apply K].
  Qed.

  Lemma scanIdentifier_more n s c r x : scanIdentifier n s c r = Some x -> scanIdentifier (S n) s c r = Some x.
  Proof. unfold scanIdentifier. destruct (identifierLoop n s r) as [y|] eqn:E; [|discriminate]. now rewrite (identifierLoop_more _ _ _ _ E). Qed.
  Lemma scanNumber_more n s c r g x : scanNumber n s c r g = Some x -> scanNumber (S n) s c r g = Some x.
  Proof. unfold scanNumber. destruct (numberLoop n s false r) as [y|] eqn:E; [|discriminate]. now rewrite (numberLoop_more _ _ _ _ _ E). Qed.
  Lemma scanParameter_more n s c r x : scanParameter n s c r = Some x -> scanParameter (S n) s c r = Some x.
  Proof. unfold scanParameter. destruct (parameterLoop n s r) as [y|] eqn:E; [|discriminate]. now rewrite (parameterLoop_more _ _ _ _ E). Qed.
  Lemma scanQuotedIdentifier_more n s c r x : scanQuotedIdentifier n s c r = Some x -> scanQuotedIdentifier (S n) s c r = Some x.
  Proof. unfold scanQuotedIdentifier. destruct (quotedIdentifierLoop n s r) as [y|] eqn:E; [|discriminate]. now rewrite (quotedIdentifierLoop_more _ _ _ _ E). Qed.
  Lemma scanString_more n s c e x : scanString n s c e = Some x -> scanString (S n) s c e = Some x.
  Proof. unfold scanString. destruct (scanQuotedConstant n s c e) as [y|] eqn:E; [|discriminate]. now rewrite (scanQuotedConstant_more _ _ _ _ _ E). Qed.
  Lemma scanBytes_more n s c e x : scanBytes n s c e = Some x -> scanBytes (S n) s c e = Some x.
  Proof. unfold scanBytes. destruct (scanQuotedConstant n s c e) as [y|] eqn:E; [|discriminate]. now rewrite (scanQuotedConstant_more _ _ _ _ _ E). Qed.
  Lemma comments_more n s r x : comments n s r = Some x -> comments (S n) s r = Some x.
  Proof.
    unfold comments. destruct (r =? tMinus); [|destruct (r =? tSlash); [|auto]]; destruct (readRune s) as [r2 s2].
    - destruct (r2 =? tMinus); [|auto]. destruct (lineComment n s2) as [y|] eqn:E; [|discriminate]. now rewrite (lineComment_more _ _ _ E).
    - destruct (r2 =? tStar); [|auto]. destruct (blockComment n s2 0) as [y|] eqn:E; [|discriminate]. now rewrite (blockComment_more _ _ _ _ E).
  Qed.
  Lemma scanToken_more n s c r x : scanToken n s c r = Some x -> scanToken (S n) s c r = Some x.
  Proof.
    unfold scanToken. cbv zeta. repeat match goal with
    | |- context [let '(_, _) := ?e in _] => destruct e
    | |- context [if ?b then _ else _] => destruct b; [solve [auto using scanString_more, scanIdentifier_more, scanBytes_more, scanHexBytes_more, scanNumber_more, scanQuotedIdentifier_more, scanParameter_more]|]
    | |- context [if ?b then _ else _] => destruct b
    end; auto using scanString_more, scanIdentifier_more, scanBytes_more, scanHexBytes_more, scanNumber_more, scanQuotedIdentifier_more, scanParameter_more.
  Qed.
  Lemma scan_more n : forall s c x, ModelScanner.scan n s c = Some x -> ModelScanner.scan (S n) s c = Some x.
  Proof.
    induction n as [|n IH]; intros s c x; [discriminate|]. intros H. remember (S n) as g eqn:Eg. rewrite Eg in H. cbn [ModelScanner.scan] in H |- *. rewrite <- Eg in H.
    destruct (skipWhitespace g s) as [[r s1]|] eqn:E1; [|discriminate]. rewrite (skipWhitespace_more _ _ _ E1). destruct (r <? 0); [auto|]. destruct (r =? 59); [auto|].
    destruct (comments g s1 r) as [o|] eqn:E2; [|discriminate]. rewrite (comments_more _ _ _ _ E2). destruct o; auto. now apply scanToken_more.
  Qed.
  Lemma scan_most n m s c x : (n <= m)%nat -> ModelScanner.scan n s c = Some x -> ModelScanner.scan m s c = Some x.
  Proof. intros H E. induction H as [|m H IH]; [exact E|now apply scan_more]. Qed.
  Lemma scan_fuels n m s c x y : ModelScanner.scan n s c = Some x -> ModelScanner.scan m s c = Some y -> x = y.
  Proof.
    intros E1 E2. destruct (Nat.le_gt_cases n m) as [H|H].
    - rewrite (scan_most n m s c x H E1) in E2. now injection E2.
    - rewrite (scan_most m n s c y ltac:(lia) E2) in E1. now injection E1.
  Qed.

  (** ** What leaves the buffer alone *)
  Lemma readRuneE_buffer s c r s' c' : readRuneE s c = (r, s', c') -> s_buffer s' = s_buffer s.
  Proof. unfold readRuneE. destruct (s_unread s); [now intros [= <- <- <-]|]. destruct (s_in s) as [|x l]; [now intros [= <- <- <-]|]. destruct (x =? tError); now intros [= <- <- <-]. Qed.
  Lemma skipWhitespaceE_buffer n : forall s c r s' c', skipWhitespaceE n s c = Some (r, s', c') -> s_buffer s' = s_buffer s.
  Proof.
    induction n as [|n IH]; intros s c r s' c'; cbn [skipWhitespaceE]; [discriminate|]. destruct (readRuneE s c) as [[r1 s1] c1] eqn:E. apply readRuneE_buffer in E.
    destruct (_ || _); [now intros [= <- <- <-]|]. intros K. apply IH in K. congruence.
  Qed.
  Lemma lineCommentE_buffer n : forall s c r s' c', lineCommentE n s c = Some (r, s', c') -> s_buffer s' = s_buffer s.
  Proof.
    induction n as [|n IH]; intros s c r s' c'; cbn [lineCommentE]; [discriminate|]. destruct (readRuneE s c) as [[r1 s1] c1] eqn:E. apply readRuneE_buffer in E.
    destruct (r1 <? 0); [now intros [= <- <- <-]|]. destruct (r1 =? 10); [now intros [= <- <- <-]|]. intros K. apply IH in K. congruence.
  Qed.
  Lemma blockCommentE_buffer n : forall s c p r s' c', blockCommentE n s c p = Some (r, s', c') -> s_buffer s' = s_buffer s.
  Proof.
    induction n as [|n IH]; intros s c p r s' c'; cbn [blockCommentE]; [discriminate|]. destruct (readRuneE s c) as [[r1 s1] c1] eqn:E. apply readRuneE_buffer in E.
    destruct (r1 <? 0); [now intros [= <- <- <-]|]. destruct (_ && _); [now intros [= <- <- <-]|]. intros K. apply IH in K. congruence.
  Qed.
  Lemma commentsE_buffer n s c r o c' : commentsE n s c r = Some (o, c') ->
    match o with Again s' | Return _ s' | Proceed s' => s_buffer s' = s_buffer s end.
  Proof.
    unfold commentsE. destruct (r =? tMinus); [|destruct (r =? tSlash); [|now intros [= <- <-]]]; destruct (readRuneE s c) as [[r1 s1] c1] eqn:E; apply readRuneE_buffer in E.
    - destruct (r1 =? tMinus); [|destruct (r1 <? 0); now intros [= <- <-]]. destruct (lineCommentE n s1 c1) as [[[[r2|] s2] c2]|] eqn:E2; [..|discriminate]; intros [= <- <-]; apply lineCommentE_buffer in E2; congruence.
    - destruct (r1 =? tStar); [|destruct (r1 <? 0); now intros [= <- <-]]. destruct (blockCommentE n s1 c1 0) as [[[[r2|] s2] c2]|] eqn:E2; [..|discriminate]; intros [= <- <-]; apply blockCommentE_buffer in E2; congruence.
  Qed.

  (** ** Two scanners *)
  Section Sim.
    (** What the one reads behind the text both read, and what the other does. *)
    Variables (f t : list Z).
    Definition tails : Prop := (f = [] /\ t = []) \/ exists m, f = tError :: m.
    Hypothesis Hf : tails.

    Definition okr (r : Z) : Prop := (r = -1 /\ f = []) \/ 0 <= r.
    Definition sim (s s0 : scanner) : Prop :=
      exists u, s_in s = u ++ f /\ s0 = with_in s (u ++ t) /\ Forall (fun r => 0 <= r) u /\ (s_unread s = true -> okr (s_read s)) /\ buffer_ok (s_buffer s).

    (** The one has read the error. *)
    Definition at_error (s : scanner) : Prop := f = tError :: s_in s /\ buffer_ok (s_buffer s).
    Definition hit (s : scanner) (c c' : sctx) : Prop :=
      at_error s /\ s_unread s = false /\ s_read s = 0 /\ c' = set_error c SRead.

    (** Then the other has read the end of the file, if there is no more. *)
    Definition ended (s s0 : scanner) : Prop :=
      s_unread s0 = false /\ s_read s0 = -1 /\ s_buffer s0 = s_buffer s /\ s_ids s0 = s_ids s.

    Lemma read_sim s s0 c : sim s s0 ->
      (exists r s' s0', readRuneE s c = (r, s', c) /\ readRune s0 = (r, s0') /\ sim s' s0' /\ okr r /\ s_read s' = r) \/
      (exists s' c', readRuneE s c = (tError, s', c') /\ hit s' c c' /\ (t = [] -> exists s0', readRune s0 = (-1, s0') /\ ended s' s0')).
    Proof.
      intros (u & E1 & -> & F & Hr & Hb). unfold readRuneE, readRune. cbn [with_in s_unread s_in s_read s_line s_column s_buffer s_ids].
      destruct (s_unread s) eqn:Eu.
      - left. do 3 eexists. split; [reflexivity|]. split; [reflexivity|]. split; [|split; [now apply Hr|reflexivity]].
        exists u. cbn. split; [exact E1|]. split; [reflexivity|]. split; [exact F|]. split; [discriminate|exact Hb].
      - rewrite E1. destruct u as [|x u]; cbn [app].
        + destruct Hf as [[Ef Et]|[m Ef]].
          * left. rewrite Ef, Et. do 3 eexists. split; [reflexivity|]. split; [reflexivity|]. split; [|split; [now left|reflexivity]].
            exists []. cbn. rewrite Ef, Et. split; [reflexivity|]. split; [reflexivity|]. split; [constructor|]. split; [discriminate|exact Hb].
          * right. rewrite Ef. cbn [Z.eqb]. do 2 eexists. split; [reflexivity|]. split; [now repeat split|]. intros ->. eexists. split; [reflexivity|]. now repeat split.
        + inversion F as [|? ? Fx F']; subst. destruct (Z.eqb_spec x tError) as [->|N]; [lia|].
          left. do 3 eexists. split; [reflexivity|]. split; [reflexivity|]. split; [|split; [now right|reflexivity]].
          exists u. cbn. split; [reflexivity|]. split; [reflexivity|]. split; [exact F'|]. split; [discriminate|exact Hb].
    Qed.

    Lemma sim_write s s0 r : sim s s0 -> sim (writeRune s r) (writeRune s0 r).
    Proof. intros (u & E1 & -> & F & Hr & Hb). exists u. repeat (split; [solve [auto]|]). cbn. now apply b_writeRune_ok. Qed.
    Lemma sim_byte s s0 r : sim s s0 -> sim (writeByte s r) (writeByte s0 r).
    Proof. intros (u & E1 & -> & F & Hr & Hb). exists u. repeat (split; [solve [auto]|]). cbn. now apply b_writeByte_ok. Qed.
    Lemma sim_buffer s s0 : sim s s0 -> s_buffer s0 = s_buffer s /\ s_ids s0 = s_ids s /\ s_line s0 = s_line s /\ s_column s0 = s_column s.
    Proof. intros (u & E1 & -> & F & Hr). now repeat split. Qed.
    Lemma sim_ids s s0 T : sim s s0 -> sim (set_ids s T) (set_ids s0 T).
    Proof. intros (u & E1 & -> & F & Hr). exists u. now repeat split. Qed.
    Lemma sim_unread s s0 : sim s s0 -> okr (s_read s) -> sim (unreadRune s) (unreadRune s0).
    Proof. intros (u & E1 & -> & F & Hr & Hb) H. exists u. now repeat split. Qed.

    (** ** Outcomes *)
    Definition reported (s : scanner) (c : sctx) (k : Z) : Prop :=
      at_error s /\ s_unread s = false /\ k = tError /\ c_error c = Some SRead.
    Definition lost (s : scanner) (c : sctx) (k : Z) (o0 : scanned) : Prop :=
      at_error s /\ s_unread s = true /\ s_read s = 0 /\ (k <> tError /\ untold_token s k) /\
      (t = [] -> exists s0 c0, o0 = Some (s0, c0, k) /\ c = set_error c0 SRead /\ s_buffer s0 = s_buffer s /\ s_ids s0 = s_ids s).
    Definition parameter (s : scanner) (c : sctx) (k : Z) (o0 : scanned) : Prop :=
      at_error s /\ s_unread s = false /\ k = tError /\ c_error c = Some SExpectedParameter /\
      (t = [] -> exists s0, o0 = Some (s0, c, k)).

    Inductive agree : scanned -> scanned -> Prop :=
    | ag_stuck o0 : (t = [] -> o0 = None) -> agree None o0
    | ag_both s c k s0 : sim s s0 -> agree (Some (s, c, k)) (Some (s0, c, k))
    | ag_reported s c k o0 : reported s c k -> agree (Some (s, c, k)) o0
    | ag_lost s c k o0 : lost s c k o0 -> agree (Some (s, c, k)) o0
    | ag_parameter s c k o0 : parameter s c k o0 -> agree (Some (s, c, k)) o0.

    Lemma hit_reported s c c' : hit s c c' -> reported s c' tError.
    Proof. intros (H1 & H2 & H3 & ->). split; [exact H1|]. now repeat split. Qed.

    Lemma neg_eof r : okr r -> r =? tError = false.
    Proof. intros H. unfold okr in H. apply Z.eqb_neq. lia. Qed.

    Ltac rd s0 c H := let r := fresh "r" in let s1 := fresh "s1" in let s01 := fresh "s01" in let c1 := fresh "c1" in
      let E1 := fresh "E1" in let E2 := fresh "E2" in let H1 := fresh "H1" in let H2 := fresh "H2" in let H3 := fresh "H3" in
      destruct (read_sim _ s0 c H) as [(r & s1 & s01 & E1 & E2 & H1 & H2 & H3)|(s1 & c1 & E1 & H1 & H2)];
      [rewrite E1, E2|rewrite E1].

    Lemma identifierLoop_sim fuel : forall s s0 c r, sim s s0 ->
      (identifierLoopE fuel s c r = None /\ identifierLoop fuel s0 r = None) \/
      (exists s1 s01, identifierLoopE fuel s c r = Some (s1, c, false) /\ identifierLoop fuel s0 r = Some s01 /\ sim s1 s01) \/
      (exists s1 c1, identifierLoopE fuel s c r = Some (s1, c1, true) /\ hit s1 c c1).
    Proof.
      induction fuel as [|fuel IH]; intros s s0 c r H; cbn [identifierLoopE identifierLoop]; [now left|]. apply (sim_write _ _ r) in H. rd (writeRune s0 r) c H.
      - destruct (Z.eqb_spec r0 tEOF) as [->|N]; [right; left; exists s1, s01; auto|]. rewrite (neg_eof _ H2). destruct (negb (x_is_letter r0) && _ && _ && _); [|now apply IH].
        right. left. exists (unreadRune s1), (unreadRune s01). split; [reflexivity|]. split; [reflexivity|]. apply sim_unread; [exact H1|now rewrite H3].
      - cbn [Z.eqb Pos.eqb]. right. right. exists s1, c1. auto.
    Qed.

    Lemma scanIdentifier_sim fuel s s0 c r : sim s s0 -> agree (scanIdentifierE fuel s c r) (scanIdentifier fuel s0 c r).
    Proof.
      intros H. unfold scanIdentifierE, scanIdentifier. destruct (identifierLoop_sim fuel s s0 c r H) as [[-> ->]|[(s1 & s01 & -> & -> & H1)|(s1 & c1 & -> & H1)]].
      - now apply ag_stuck.
      - destruct (sim_buffer _ _ H1) as (-> & -> & _). destruct (ID _ _ _) as [T id]. apply ag_both. now apply sim_ids.
      - apply ag_reported. now apply hit_reported in H1.
    Qed.

    Lemma numberLoop_sim fuel : forall s s0 c d r, sim s s0 ->
      (numberLoopE fuel s c d r = None /\ numberLoop fuel s0 d r = None) \/
      (exists s1 s01 d', numberLoopE fuel s c d r = Some (s1, c, Some d') /\ numberLoop fuel s0 d r = Some (s01, d') /\ sim s1 s01) \/
      (exists s1 c1, numberLoopE fuel s c d r = Some (s1, c1, None) /\ hit s1 c c1).
    Proof.
      induction fuel as [|fuel IH]; intros s s0 c d r H; cbn [numberLoopE numberLoop]; [now left|]. apply (sim_write _ _ r) in H. rd (writeRune s0 r) c H.
      - destruct (Z.eqb_spec r0 tEOF) as [->|N]; [right; left; exists s1, s01, d; auto|]. rewrite (neg_eof _ H2). destruct (negb d && (r0 =? tDot)); [now apply IH|]. destruct (negb (x_is_digit r0)); [|now apply IH].
        right. left. exists (unreadRune s1), (unreadRune s01), d. split; [reflexivity|]. split; [reflexivity|]. apply sim_unread; [exact H1|now rewrite H3].
      - cbn [Z.eqb Pos.eqb]. right. right. exists s1, c1. auto.
    Qed.

    Lemma scanNumber_sim fuel s s0 c r sg : sim s s0 -> agree (scanNumberE fuel s c r sg) (scanNumber fuel s0 c r sg).
    Proof.
      intros H. unfold scanNumberE, scanNumber. destruct (numberLoop_sim fuel s s0 c false r H) as [[-> ->]|[(s1 & s01 & d & -> & -> & H1)|(s1 & c1 & -> & H1)]].
      - now apply ag_stuck.
      - destruct (sim_buffer _ _ H1) as (-> & _). destruct d; [destruct (x_parse_float _)|destruct (parse_int _)]; now apply ag_both.
      - apply ag_reported. now apply hit_reported in H1.
    Qed.

    Lemma parameterLoop_sim fuel : forall s s0 c r, sim s s0 ->
      (parameterLoopE fuel s c r = None /\ parameterLoop fuel s0 r = None) \/
      (exists s1 s01, parameterLoopE fuel s c r = Some (s1, c, false) /\ parameterLoop fuel s0 r = Some s01 /\ sim s1 s01) \/
      (exists s1 c1, parameterLoopE fuel s c r = Some (s1, c1, true) /\ hit s1 c c1).
    Proof.
      induction fuel as [|fuel IH]; intros s s0 c r H; cbn [parameterLoopE parameterLoop]; [now left|]. apply (sim_write _ _ r) in H. rd (writeRune s0 r) c H.
      - destruct (Z.eqb_spec r0 tEOF) as [->|N]; [right; left; exists s1, s01; auto|]. rewrite (neg_eof _ H2). destruct (negb (x_is_digit r0)); [|now apply IH].
        right. left. exists (unreadRune s1), (unreadRune s01). split; [reflexivity|]. split; [reflexivity|]. apply sim_unread; [exact H1|now rewrite H3].
      - cbn [Z.eqb Pos.eqb]. right. right. exists s1, c1. auto.
    Qed.

    Lemma scanParameter_sim fuel s s0 c r : sim s s0 -> agree (scanParameterE fuel s c r) (scanParameter fuel s0 c r).
    Proof.
      intros H. unfold scanParameterE, scanParameter. destruct (parameterLoop_sim fuel s s0 c r H) as [[-> ->]|[(s1 & s01 & -> & -> & H1)|(s1 & c1 & -> & H1)]].
      - now apply ag_stuck.
      - destruct (sim_buffer _ _ H1) as (-> & _). destruct (parse_int _) as [i|]; [destruct (i =? 0)|]; now apply ag_both.
      - apply ag_reported. now apply hit_reported in H1.
    Qed.

    Lemma scanQuotedIdentifier_sim fuel : forall s s0 c d, sim s s0 -> agree (scanQuotedIdentifierE fuel s c d) (scanQuotedIdentifier fuel s0 c d).
    Proof.
      unfold scanQuotedIdentifier. induction fuel as [|fuel IH]; intros s s0 c d H; cbn [scanQuotedIdentifierE quotedIdentifierLoop]; [now apply ag_stuck|]. rd s0 c H.
      - destruct (Z.eqb_spec r tEOF) as [->|N]; [now apply ag_both|]. rewrite (neg_eof _ H2). destruct (r =? d).
        + destruct (sim_buffer _ _ H1) as (-> & -> & _). destruct (ID _ _ _) as [T id]. apply ag_both. now apply sim_ids.
        + apply IH. now apply sim_write.
      - cbn [Z.eqb]. apply ag_reported. now apply hit_reported in H1.
    Qed.

    (** Functions that return more than a token. *)
    Definition agree_digit (c : sctx) (o o0 : scanner * sctx * option Z) : Prop :=
      (exists s1 s01 d, o = (s1, c, Some d) /\ o0 = (s01, c, Some d) /\ sim s1 s01) \/
      (exists s1 s01 c1, o = (s1, c1, None) /\ o0 = (s01, c1, None) /\ sim s1 s01) \/
      (exists s1 c1, o = (s1, c1, None) /\ hit s1 c c1).
    Definition agree_rune {A} (e : A) (c : sctx) (o o0 : scanner * sctx * A) : Prop :=
      (exists s1 s01 c1 r, o = (s1, c1, r) /\ o0 = (s01, c1, r) /\ sim s1 s01) \/
      (exists s1 c1, o = (s1, c1, e) /\ hit s1 c c1).

    Lemma scanHexDigit_sim s s0 c : sim s s0 -> agree_digit c (scanHexDigitE s c) (scanHexDigit s0 c).
    Proof.
      intros H. unfold scanHexDigitE, scanHexDigit. rd s0 c H.
      - rewrite (neg_eof _ H2). destruct (_ && _); [left; exists s1, s01, (r - 48); auto|]. destruct (_ && _); [left; exists s1, s01, (r - 65 + 10); auto|]. destruct (_ && _); [left; exists s1, s01, (r - 97 + 10); auto|].
        right. left. exists s1, s01, (set_error c SHexDigit). auto.
      - right. right. exists s1, c1. auto.
    Qed.

    Lemma scanOctalDigit_sim s s0 c : sim s s0 -> agree_digit c (scanOctalDigitE s c) (scanOctalDigit s0 c).
    Proof.
      intros H. unfold scanOctalDigitE, scanOctalDigit. rd s0 c H.
      - rewrite (neg_eof _ H2). destruct (_ && _); [left; exists s1, s01, (r - 48); auto|].
        right. left. exists s1, s01, (set_error c SOctalDigit). auto.
      - right. right. exists s1, c1. auto.
    Qed.

    Lemma scanHex_sim s s0 c : sim s s0 -> agree_rune tError c (scanHexE s c) (scanHex s0 c).
    Proof.
      intros H. unfold scanHexE, scanHex. destruct (scanHexDigit_sim s s0 c H) as [(s1 & s01 & d & -> & -> & H1)|[(s1 & s01 & c1 & -> & -> & H1)|(s1 & c1 & -> & H1)]].
      - destruct (scanHexDigit_sim s1 s01 c H1) as [(s2 & s02 & d2 & -> & -> & H2)|[(s2 & s02 & c2 & -> & -> & H2)|(s2 & c2 & -> & H2)]].
        + left. exists s2, s02, c, (d * 16 + d2). auto.
        + left. exists s2, s02, c2, tError. auto.
        + right. exists s2, c2. auto.
      - left. exists s1, s01, c1, tError. auto.
      - right. exists s1, c1. auto.
    Qed.

    Lemma unicodeLoop_sim n : forall s s0 c u, sim s s0 -> agree_digit c (unicodeLoopE n s c u) (unicodeLoop n s0 c u).
    Proof.
      induction n as [|n IH]; intros s s0 c u H; cbn [unicodeLoopE unicodeLoop]; [left; exists s, s0, u; auto|].
      destruct (scanHexDigit_sim s s0 c H) as [(s1 & s01 & d & -> & -> & H1)|[(s1 & s01 & c1 & -> & -> & H1)|(s1 & c1 & -> & H1)]].
      - now apply IH.
      - right. left. exists s1, s01, c1. auto.
      - right. right. exists s1, c1. auto.
    Qed.

    Lemma scanUnicode_sim s s0 c n : sim s s0 -> agree_rune tError c (scanUnicodeE s c n) (scanUnicode s0 c n).
    Proof.
      intros H. unfold scanUnicodeE, scanUnicode. destruct (unicodeLoop_sim n s s0 c 0 H) as [(s1 & s01 & d & -> & -> & H1)|[(s1 & s01 & c1 & -> & -> & H1)|(s1 & c1 & -> & H1)]].
      - left. exists s1, s01, c, (i32 d). auto.
      - left. exists s1, s01, c1, tError. auto.
      - right. exists s1, c1. auto.
    Qed.

    Lemma scanOctal_sim s s0 c r : sim s s0 -> agree_rune tError c (scanOctalE s c r) (scanOctal s0 c r).
    Proof.
      intros H. unfold scanOctalE, scanOctal. destruct (scanOctalDigit_sim s s0 c H) as [(s1 & s01 & d & -> & -> & H1)|[(s1 & s01 & c1 & -> & -> & H1)|(s1 & c1 & -> & H1)]].
      - destruct (scanOctalDigit_sim s1 s01 c H1) as [(s2 & s02 & d2 & -> & -> & H2)|[(s2 & s02 & c2 & -> & -> & H2)|(s2 & c2 & -> & H2)]].
        + left. eexists s2, s02, c, _. auto.
        + left. exists s2, s02, c2, tError. auto.
        + right. exists s2, c2. auto.
      - left. exists s1, s01, c1, tError. auto.
      - right. exists s1, c1. auto.
    Qed.

    Lemma scanEscape_sim s s0 c : sim s s0 -> agree_rune tError c (scanEscapeE s c) (scanEscape s0 c).
    Proof.
      intros H. unfold scanEscapeE, scanEscape. rd s0 c H.
      - repeat (match goal with |- agree_rune _ _ (if ?b then (_, _, ?v) else _) _ => destruct b; [left; exists s1, s01, c, v; auto|] end).
        destruct (r =? 120); [now apply scanHex_sim|]. destruct (r =? 117); [now apply scanUnicode_sim|]. destruct (r =? 85); [now apply scanUnicode_sim|]. destruct (_ && _); [now apply scanOctal_sim|].
        left. exists s1, s01, c, r. auto.
      - right. exists s1, c1. auto.
    Qed.

    Lemma quotedRune_sim s s0 c e r : sim s s0 -> agree_rune None c (quotedRuneE s c e r) (quotedRune s0 c e r).
    Proof.
      intros H. unfold quotedRuneE, quotedRune. destruct (_ && _); [|left; exists s, s0, c, (Some r); auto].
      destruct (scanEscape_sim s s0 c H) as [(s1 & s01 & c1 & r1 & -> & -> & H1)|(s1 & c1 & -> & H1)].
      - destruct (r1 =? tEOF); [left; eexists s1, s01, _, None; auto|]. destruct (r1 =? tError); [left; exists s1, s01, c1, None; auto|]. left. exists s1, s01, c1, (Some r1). auto.
      - right. exists s1, c1. auto.
    Qed.

    Lemma quoteSpace_sim fuel : forall s s0 c r nl, sim s s0 -> s_read s = r -> okr r ->
      (exists s1 s01 r1 nl1, quoteSpaceE fuel s c r nl = Some (s1, c, r1, nl1) /\ quoteSpace fuel s0 r nl = Some (s01, r1, nl1) /\ sim s1 s01 /\ s_read s1 = r1 /\ okr r1) \/
      (exists s1 c1 nl1, quoteSpaceE fuel s c r nl = Some (s1, c1, tError, nl1) /\ hit s1 c c1) \/
      (quoteSpaceE fuel s c r nl = None /\ (t = [] -> quoteSpace fuel s0 r nl = None)).
    Proof.
      induction fuel as [|fuel IH]; intros s s0 c r nl H Er Hr; cbn [quoteSpaceE quoteSpace]; [now right; right|].
      destruct (x_is_space r); [|left; exists s, s0, r, nl; auto 6]. rd s0 c H; [apply IH; [exact H1|exact H3|exact H2]|]. right. destruct fuel as [|fuel]; cbn [quoteSpaceE].
      - right. split; [reflexivity|]. intros E. destruct (H2 E) as (s0' & -> & _). reflexivity.
      - rewrite (not_space tError ltac:(lia)). left. eexists s1, c1, _. split; [reflexivity|exact H1].
    Qed.

    Lemma scanQuotedConstant_sim fuel : forall s s0 c e, sim s s0 -> agree (scanQuotedConstantE fuel s c e) (scanQuotedConstant fuel s0 c e).
    Proof.
      induction fuel as [|fuel IH]; intros s s0 c e H; cbn [scanQuotedConstantE scanQuotedConstant]; [now apply ag_stuck|]. rd s0 c H.
      - destruct (Z.eqb_spec r tEOF) as [->|N]; [now apply ag_both|]. rewrite (neg_eof _ H2).
        assert (K : forall s s0 r, sim s s0 -> agree
          (match quotedRuneE s c e r with (s, c, None) => Some (s, c, tError) | (s, c, Some r) => scanQuotedConstantE fuel (writeRune s r) c e end)
          (match quotedRune s0 c e r with (s, c, None) => Some (s, c, tError) | (s, c, Some r) => scanQuotedConstant fuel (writeRune s r) c e end)).
        { clear - IH Hf. intros s s0 r H. destruct (quotedRune_sim s s0 c e r H) as [(s1 & s01 & c1 & [r1|] & -> & -> & H1)|(s1 & c1 & -> & H1)].
          - apply IH. now apply sim_write.
          - now apply ag_both.
          - apply ag_reported. now apply hit_reported in H1. }
        destruct (r =? 39); [|now apply K]. destruct (read_sim s1 s01 c H1) as [(r2 & s2 & s02 & E3 & E4 & J1 & J2 & J3)|(s2 & c2 & E3 & J1 & J2)]; [rewrite E3, E4|rewrite E3].
        + destruct (x_is_space r2).
          * destruct (quoteSpace_sim (S fuel) s2 s02 c r2 false J1 J3 J2) as [(s3 & s03 & r3 & nl & E5 & E6 & H6 & H7 & H8)|[(s3 & c3 & nl & E5 & H6)|(E5 & E6)]].
            -- rewrite E5, E6. destruct (_ && _); [now apply IH|]. rewrite (neg_eof _ H8). apply ag_both. apply sim_unread; [exact H6|now rewrite H7].
            -- rewrite E5. cbn [Z.eqb Pos.eqb andb]. apply ag_reported. now apply hit_reported in H6.
            -- rewrite E5. apply ag_stuck. intros E. now rewrite (E6 E).
          * destruct (negb (r2 =? 39)); [|now apply K]. apply ag_both. apply sim_unread; [exact J1|now rewrite J3].
        + rewrite (not_space tError ltac:(lia)). cbn [Z.eqb negb]. apply ag_lost. destruct J1 as (K1 & K2 & K3 & ->). split; [exact K1|]. split; [reflexivity|]. split; [exact K3|]. split; [split; [discriminate|now left]|].
          intros E. destruct (J2 E) as (s0' & -> & K4 & K5 & K6 & K7). rewrite (not_space (-1) ltac:(lia)). cbn [Z.eqb negb]. exists (unreadRune s0'), c. now repeat split.
      - cbn [Z.eqb Pos.eqb]. apply ag_reported. now apply hit_reported in H1.
    Qed.

    Lemma scanString_sim fuel s s0 c e : sim s s0 -> agree (scanStringE fuel s c e) (scanString fuel s0 c e).
    Proof.
      intros H. unfold scanStringE, scanString. destruct (scanQuotedConstant_sim fuel s s0 c e H) as [o0 E|s1 c1 k s01 H1|s1 c1 k o0 (K1 & K2 & -> & K3)|s1 c1 k o0 (K1 & K2 & K3 & K4 & K5)|s1 c1 k o0 (K1 & K2 & -> & K3 & K6)].
      - apply ag_stuck. intros Et. now rewrite (E Et).
      - destruct (k =? tError); [now apply ag_both|]. destruct (sim_buffer _ _ H1) as (-> & _). now apply ag_both.
      - cbn [Z.eqb Pos.eqb]. now apply ag_reported.
      - destruct K4 as [K4 _]. apply Z.eqb_neq in K4. rewrite K4. apply ag_lost. split; [exact K1|]. split; [exact K2|]. split; [exact K3|]. split; [split; [discriminate|now left]|].
        intros Et. destruct (K5 Et) as (s02 & c0 & -> & -> & J1 & J2). rewrite K4. eexists s02, _. split; [reflexivity|]. rewrite J1. now repeat split.
      - cbn [Z.eqb Pos.eqb]. apply ag_parameter. repeat (split; [now auto|]). intros Et. destruct (K6 Et) as (s02 & ->). now exists s02.
    Qed.

    Lemma scanBytes_sim fuel s s0 c e : sim s s0 -> agree (scanBytesE fuel s c e) (scanBytes fuel s0 c e).
    Proof.
      intros H. unfold scanBytesE, scanBytes. destruct (scanQuotedConstant_sim fuel s s0 c e H) as [o0 E|s1 c1 k s01 H1|s1 c1 k o0 (K1 & K2 & -> & K3)|s1 c1 k o0 (K1 & K2 & K3 & K4 & K5)|s1 c1 k o0 (K1 & K2 & -> & K3 & K6)].
      - apply ag_stuck. intros Et. now rewrite (E Et).
      - destruct (k =? tError); [now apply ag_both|]. destruct (sim_buffer _ _ H1) as (-> & _). now apply ag_both.
      - cbn [Z.eqb Pos.eqb]. now apply ag_reported.
      - destruct K4 as [K4 _]. apply Z.eqb_neq in K4. rewrite K4. apply ag_lost. split; [exact K1|]. split; [exact K2|]. split; [exact K3|]. split; [split; [discriminate|right; now left]|].
        intros Et. destruct (K5 Et) as (s02 & c0 & -> & -> & J1 & J2). rewrite K4. eexists s02, _. split; [reflexivity|]. rewrite J1. now repeat split.
      - cbn [Z.eqb Pos.eqb]. apply ag_parameter. repeat (split; [now auto|]). intros Et. destruct (K6 Et) as (s02 & ->). now exists s02.
    Qed.

    Lemma scanHexBytes_sim fuel : forall s s0 c, sim s s0 -> agree (scanHexBytesE fuel s c) (scanHexBytes fuel s0 c).
    Proof.
      induction fuel as [|fuel IH]; intros s s0 c H; cbn [scanHexBytesE scanHexBytes]; [now apply ag_stuck|]. rd s0 c H.
      - destruct (Z.eqb_spec r tEOF) as [->|N]; [now apply ag_both|]. rewrite (neg_eof _ H2). destruct (r =? 39); [destruct (sim_buffer _ _ H1) as (-> & _); now apply ag_both|].
        assert (H1' : sim (unreadRune s1) (unreadRune s01)) by (apply sim_unread; [exact H1|now rewrite H3]).
        destruct (scanHexDigit_sim _ _ c H1') as [(s2 & s02 & d & -> & -> & J1)|[(s2 & s02 & c2 & -> & -> & J1)|(s2 & c2 & -> & J1)]].
        + destruct (scanHexDigit_sim _ _ c J1) as [(s3 & s03 & d3 & -> & -> & J2)|[(s3 & s03 & c3 & -> & -> & J2)|(s3 & c3 & -> & J2)]].
          * apply IH. now apply sim_byte.
          * now apply ag_both.
          * apply ag_reported. now apply hit_reported in J2.
        + now apply ag_both.
        + apply ag_reported. now apply hit_reported in J1.
      - cbn [Z.eqb Pos.eqb]. apply ag_reported. now apply hit_reported in H1.
    Qed.

    Lemma skipWhitespace_sim fuel : forall s s0 c, sim s s0 ->
      (skipWhitespaceE fuel s c = None /\ skipWhitespace fuel s0 = None) \/
      (exists r s1 s01, skipWhitespaceE fuel s c = Some (r, s1, c) /\ skipWhitespace fuel s0 = Some (r, s01) /\ sim s1 s01) \/
      (exists s1 c1, skipWhitespaceE fuel s c = Some (tError, s1, c1) /\ hit s1 c c1).
    Proof.
      induction fuel as [|fuel IH]; intros s s0 c H; cbn [skipWhitespaceE skipWhitespace]; [now left|]. rd s0 c H.
      - destruct (_ || _); [|now apply IH]. right. left. exists r, s1, s01. auto.
      - cbn [Z.ltb Z.compare orb]. right. right. exists s1, c1. auto.
    Qed.

    Lemma lineComment_sim fuel : forall s s0 c, sim s s0 ->
      (lineCommentE fuel s c = None /\ lineComment fuel s0 = None) \/
      (exists o s1 s01, lineCommentE fuel s c = Some (o, s1, c) /\ lineComment fuel s0 = Some (o, s01) /\ sim s1 s01) \/
      (exists s1 c1, lineCommentE fuel s c = Some (Some tError, s1, c1) /\ hit s1 c c1).
    Proof.
      induction fuel as [|fuel IH]; intros s s0 c H; cbn [lineCommentE lineComment]; [now left|]. rd s0 c H.
      - destruct (r <? 0); [right; left; exists (Some r), s1, s01; auto|]. destruct (r =? 10); [right; left; exists None, s1, s01; auto|now apply IH].
      - cbn [Z.ltb Z.compare]. right. right. exists s1, c1. auto.
    Qed.

    Lemma blockComment_sim fuel : forall s s0 c p, sim s s0 ->
      (blockCommentE fuel s c p = None /\ blockComment fuel s0 p = None) \/
      (exists o s1 s01, blockCommentE fuel s c p = Some (o, s1, c) /\ blockComment fuel s0 p = Some (o, s01) /\ sim s1 s01) \/
      (exists s1 c1, blockCommentE fuel s c p = Some (Some tError, s1, c1) /\ hit s1 c c1).
    Proof.
      induction fuel as [|fuel IH]; intros s s0 c p H; cbn [blockCommentE blockComment]; [now left|]. rd s0 c H.
      - destruct (r <? 0); [right; left; exists (Some r), s1, s01; auto|]. destruct (_ && _); [right; left; exists None, s1, s01; auto|now apply IH].
      - cbn [Z.ltb Z.compare]. right. right. exists s1, c1. auto.
    Qed.

    Definition sim_comment (o o0 : comment) : Prop :=
      match o, o0 with
      | Again s, Again s0 | Proceed s, Proceed s0 => sim s s0
      | Return r s, Return r0 s0 => r = r0 /\ sim s s0
      | _, _ => False
      end.

    Lemma comments_sim fuel s s0 c r : sim s s0 ->
      (commentsE fuel s c r = None /\ comments fuel s0 r = None) \/
      (exists o o0, commentsE fuel s c r = Some (o, c) /\ comments fuel s0 r = Some o0 /\ sim_comment o o0) \/
      (exists s1 c1, commentsE fuel s c r = Some (Return tError s1, c1) /\ hit s1 c c1).
    Proof.
      intros H. unfold commentsE, comments. destruct (r =? tMinus); [|destruct (r =? tSlash)].
      - rd s0 c H.
        + destruct (r0 =? tMinus).
          * destruct (lineComment_sim fuel s1 s01 c H1) as [[-> ->]|[([r2|] & s2 & s02 & -> & -> & J)|(s2 & c2 & -> & J)]]; [now left|right; left; exists (Return r2 s2), (Return r2 s02); now repeat split|right; left; exists (Again s2), (Again s02); now repeat split|right; right; exists s2, c2; auto].
          * destruct (r0 <? 0); right; left; eexists _, _; (split; [reflexivity|]); (split; [reflexivity|]); cbn; [auto|]. apply sim_unread; [exact H1|now rewrite H3].
        + cbn [Z.eqb Z.ltb Z.compare]. right. right. exists s1, c1. auto.
      - rd s0 c H.
        + destruct (r0 =? tStar).
          * destruct (blockComment_sim fuel s1 s01 c 0 H1) as [[-> ->]|[([r2|] & s2 & s02 & -> & -> & J)|(s2 & c2 & -> & J)]]; [now left|right; left; exists (Return r2 s2), (Return r2 s02); now repeat split|right; left; exists (Again s2), (Again s02); now repeat split|right; right; exists s2, c2; auto].
          * destruct (r0 <? 0); right; left; eexists _, _; (split; [reflexivity|]); (split; [reflexivity|]); cbn; [auto|]. apply sim_unread; [exact H1|now rewrite H3].
        + cbn [Z.eqb Z.ltb Z.compare]. right. right. exists s1, c1. auto.
      - right. left. eexists _, _. split; [reflexivity|]. split; [reflexivity|]. exact H.
    Qed.

    (** An error behind a letter that may stand before a quote. *)
    Lemma letter_lost fuel s s0 c c1 r o0 : In r [101; 69; 98; 120; 88] -> b_string (s_buffer s) = [] -> hit s c c1 -> (t = [] -> exists s0', readRune s0 = (-1, s0') /\ ended s s0') ->
      agree (scanIdentifierE fuel (unreadRune s) c1 r) (let '(r2, s) := readRune s0 in if r2 =? 39 then o0 s else scanIdentifier fuel (unreadRune s) c r).
    Proof.
      intros Hl Hs (K1 & K2 & K3 & ->) K. unfold scanIdentifierE. destruct zero_plain as (_ & Z1 & Z2). destruct fuel as [|fuel]; cbn [identifierLoopE].
      - apply ag_stuck. intros Et. destruct (K Et) as (s0' & -> & _). reflexivity.
      - unfold readRuneE, writeRune, unreadRune, set_buffer at 1. cbn [s_unread s_read s_in s_line s_column s_buffer s_ids set_buffer]. rewrite K3. cbn [Z.eqb Pos.eqb]. rewrite Z1, Z2. cbn [negb andb].
        cbn [s_unread s_read s_in s_line s_column s_buffer s_ids set_buffer]. destruct (ID (s_ids s) _ false) as [T id] eqn:Ei. apply ag_lost. split; [split; [exact (proj1 K1)|cbn; apply b_writeRune_ok; exact (proj2 K1)]|]. split; [reflexivity|]. split; [reflexivity|].
        split; [split; [destruct (IsReserved id); discriminate|right; right; right; split; [destruct (IsReserved id); [now right|now left]|exists r; split; [exact Hl|cbn; destruct (b_writeRune_ok (s_buffer s) r (proj2 K1)) as [_ ->]; now rewrite Hs]]]|]. intros Et. destruct (K Et) as (s0' & -> & J1 & J2 & J3 & J4). cbn [Z.eqb]. unfold scanIdentifier. cbn [identifierLoop].
        unfold readRune, writeRune, unreadRune, set_buffer at 1. cbn [s_unread s_read s_in s_line s_column s_buffer s_ids set_buffer]. rewrite J2. cbn [Z.eqb Pos.eqb].
        cbn [s_unread s_read s_in s_line s_column s_buffer s_ids set_buffer]. rewrite J3, J4, Ei. eexists _, _. split; [reflexivity|]. now repeat split.
    Qed.

    Lemma scanToken_sim fuel s s0 c r : sim s s0 -> b_string (s_buffer s) = [] -> 0 <= r -> agree (scanTokenE fuel s c r) (scanToken fuel s0 c r).
    Proof.
      intros H Hb Hr. unfold scanTokenE, scanToken. destruct (sim_buffer _ _ H) as (_ & _ & -> & ->). generalize (set_position c (s_line s) (s_column s)). clear c. intros c. cbv zeta.
      assert (Hb1 : forall s1 c1, readRuneE s c = (tError, s1, c1) -> b_string (s_buffer s1) = []) by (intros s1 c1 E; now rewrite (readRuneE_buffer _ _ _ _ _ E)).
      destruct (_ || _) eqn:Ea.
      { rd s0 c H; [destruct (r0 =? 39); [now apply scanString_sim|apply scanIdentifier_sim; apply sim_unread; [exact H1|now rewrite H3]]|]. exact (letter_lost fuel s1 s0 c c1 r _ ltac:(cbn; lia) (Hb1 _ _ E1) H1 H2). }
      clear Ea. destruct (r =? 98) eqn:Eb.
      { rd s0 c H; [destruct (r0 =? 39); [now apply scanBytes_sim|apply scanIdentifier_sim; apply sim_unread; [exact H1|now rewrite H3]]|]. exact (letter_lost fuel s1 s0 c c1 r _ ltac:(cbn; lia) (Hb1 _ _ E1) H1 H2). }
      clear Eb. destruct (_ || _) eqn:Ec.
      { rd s0 c H; [destruct (r0 =? 39); [now apply scanHexBytes_sim|apply scanIdentifier_sim; apply sim_unread; [exact H1|now rewrite H3]]|]. exact (letter_lost fuel s1 s0 c c1 r _ ltac:(cbn; lia) (Hb1 _ _ E1) H1 H2). }
      clear Ec. destruct (_ || _); [now apply scanIdentifier_sim|]. destruct (x_is_digit r); [now apply scanNumber_sim|].
      assert (Sg : forall sg k, k <> tError -> op_rune k -> agree
        (let '(r, s, c) := readRuneE s c in if x_is_digit r then scanNumberE fuel s c r sg else Some (unreadRune s, c, k))
        (let '(r, s) := readRune s0 in if x_is_digit r then scanNumber fuel s c r sg else Some (unreadRune s, c, k))).
      { intros sg k Hk Ho. rd s0 c H; [destruct (x_is_digit r0); [now apply scanNumber_sim|apply ag_both; apply sim_unread; [exact H1|now rewrite H3]]|].
        rewrite (not_digit tError ltac:(lia)). apply ag_lost. destruct H1 as (K1 & K2 & K3 & ->). split; [exact K1|]. split; [reflexivity|]. split; [exact K3|]. split; [split; [exact Hk|right; right; now left]|].
        intros Et. destruct (H2 Et) as (s0' & -> & J1 & J2 & J3 & J4). rewrite (not_digit (-1) ltac:(lia)). eexists _, _. split; [reflexivity|]. now repeat split. }
      destruct (r =? tPlus); [apply Sg; [discriminate|cbn; lia]|]. destruct (r =? tMinus); [apply Sg; [discriminate|cbn; lia]|]. clear Sg.
      destruct (_ || _); [now apply scanQuotedIdentifier_sim|]. destruct (r =? 91); [now apply scanQuotedIdentifier_sim|]. destruct (r =? 39); [now apply scanString_sim|].
      destruct (IsOpRune r) eqn:Op.
      { apply (sim_write _ _ r) in H. rd (writeRune s0 r) c H.
        - destruct (_ || _); [apply ag_both; apply sim_unread; [exact H1|now rewrite H3]|]. destruct (IsOpRune r0); [destruct (Operators r r0); apply ag_both; now apply sim_write|apply ag_both; apply sim_unread; [exact H1|now rewrite H3]].
        - cbn [Z.eqb orb]. change (IsOpRune tError) with false. cbv iota. apply ag_lost. destruct H1 as (K1 & K2 & K3 & ->). split; [exact K1|]. split; [reflexivity|]. split; [exact K3|]. split; [split; [lia|right; right; left; now apply IsOpRune_spec]|].
          intros Et. destruct (H2 Et) as (s0' & -> & J1 & J2 & J3 & J4). cbn [Z.eqb orb]. change (IsOpRune (-1)) with false. cbv iota. eexists _, _. split; [reflexivity|]. now repeat split. }
      clear Op. destruct (_ || _); [now apply ag_both|]. destruct (r =? 36); [|now apply ag_both]. rd s0 c H.
      - destruct (negb (x_is_digit r0)); [now apply ag_both|now apply scanParameter_sim].
      - rewrite (not_digit tError ltac:(lia)). cbn [negb]. apply ag_parameter. destruct H1 as (K1 & K2 & K3 & ->). repeat (split; [now auto|]). intros Et. destruct (H2 Et) as (s0' & -> & _). rewrite (not_digit (-1) ltac:(lia)). exists s0'. reflexivity.
    Qed.

    Lemma scan_sim fuel : forall s s0 c, sim s s0 -> b_string (s_buffer s) = [] -> agree (scanE fuel s c) (ModelScanner.scan fuel s0 c).
    Proof.
      induction fuel as [|fuel IH]; intros s s0 c H Hb; cbn [scanE ModelScanner.scan]; [now apply ag_stuck|].
      destruct (skipWhitespace_sim (S fuel) s s0 c H) as [[E1 E2]|[(r & s1 & s01 & E1 & E2 & H1)|(s1 & c1 & E1 & H1)]].
      - rewrite E1, E2. now apply ag_stuck.
      - apply skipWhitespaceE_buffer in E1 as E1b. rewrite E1, E2. destruct (Z.ltb_spec r 0) as [Hr|Hr]; [now apply ag_both|]. destruct (r =? 59); [now apply ag_both|].
        destruct (comments_sim (S fuel) s1 s01 c r H1) as [[E3 E4]|[(o & o0 & E3 & E4 & J)|(s2 & c2 & E3 & J)]].
        + rewrite E3, E4. now apply ag_stuck.
        + apply commentsE_buffer in E3 as E3b. rewrite E3, E4. destruct o, o0; try contradiction; cbn in E3b; [apply IH; [exact J|congruence]|destruct J as [-> J]; now apply ag_both|apply scanToken_sim; [exact J|congruence|exact Hr]].
        + rewrite E3. apply ag_reported. now apply hit_reported in J.
      - rewrite E1. cbn [Z.ltb Z.compare]. apply ag_reported. now apply hit_reported in H1.
    Qed.
  End Sim.

  (** ** [ScanE] *)
  Definition rsane (s : scanner) : Prop :=
    Forall item (s_in s) /\ buffer_ok (s_buffer s) /\ (s_unread s = true -> s_read s < 0 -> s_read s = -1 /\ s_in s = []).

  Lemma with_self s : with_in s (s_in s) = s.
  Proof. now destruct s. Qed.
  Lemma item_split l : Forall item l -> Forall (fun r => 0 <= r) l \/ exists u m, l = u ++ tError :: m /\ Forall (fun r => 0 <= r) u /\ Forall item m.
  Proof.
    induction 1 as [|x l Hx Hl IH]; [now left|]. destruct Hx as [->|Hx]; [right; exists [], l; auto|]. destruct IH as [IH|(u & m & -> & Hu & Hm)].
    - left. constructor; [lia|exact IH].
    - right. exists (x :: u), m. split; [reflexivity|]. split; [constructor; [lia|exact Hu]|exact Hm].
  Qed.

  Lemma ScanE_whole s c : rsane s -> Forall (fun r => 0 <= r) (s_in s) -> ScanE s c = Scan s c.
  Proof.
    intros (H1 & H2 & H3) F. unfold ScanE, Scan, ScanFuel. set (s1 := set_buffer s (b_reset (s_buffer s))). destruct (b_reset_ok _ H2) as [K1 K2].
    assert (Hs : sim [] [] s1 s1).
    { exists (s_in s). split; [now rewrite app_nil_r|]. split; [rewrite app_nil_r; symmetry; exact (with_self s1)|]. split; [exact F|]. split; [|exact K1]. intros E. cbn in E |- *. unfold okr. destruct (Z.ltb_spec (s_read s) 0) as [Hr|Hr]; [left; destruct (H3 E Hr); auto|right; lia]. }
    destruct (scan_sim [] [] (or_introl (conj eq_refl eq_refl)) (scan_fuel s) s1 s1 c Hs K2) as [o0 E|s2 c2 k s02 (u & E1 & -> & _)|s2 c2 k o0 ((E & _) & _)|s2 c2 k o0 ((E & _) & _)|s2 c2 k o0 ((E & _) & _)]; [now rewrite E| |discriminate E..].
    rewrite <- E1. now rewrite with_self.
  Qed.

  Lemma rsane_sane s u m : rsane s -> s_in s = u ++ tError :: m -> Forall (fun r => 0 <= r) u -> forall t, Forall (fun r => 0 <= r) t -> sane (with_in s (u ++ t)).
  Proof.
    intros (H1 & H2 & H3) E F t Ft. split; [cbn; apply Forall_app; auto|]. split; [exact H2|]. cbn. intros Eu Er. destruct (H3 Eu Er) as [_ K]. rewrite E in K. now destruct u.
  Qed.

  Lemma agree_cases f t s c k o0 : agree f t (Some (s, c, k)) o0 ->
    (exists s0, o0 = Some (s0, c, k) /\ sim f t s s0) \/ reported f s c k \/ lost f t s c k o0 \/ parameter f t s c k o0.
  Proof.
    intros A. remember (Some (s, c, k)) as o eqn:Eo. destruct A as [o0 K|s3 c3 k3 s03 H|s3 c3 k3 o0 H|s3 c3 k3 o0 H|s3 c3 k3 o0 H]; [discriminate Eo|..]; injection Eo as -> -> ->; [left; now exists s03|auto..].
  Qed.

  Lemma fuel_le s u m : s_in s = u ++ m -> (scan_fuel (with_in s u) <= scan_fuel s)%nat.
  Proof. intros E. unfold scan_fuel. cbn [with_in s_in]. rewrite E, app_length. lia. Qed.

  Lemma ScanE_cases s c u m : rsane s -> s_in s = u ++ tError :: m -> Forall (fun r => 0 <= r) u ->
    exists s' c', ScanE s c = Some (s', c') /\ rsane s' /\
      ((exists v, s_in s' = v ++ tError :: m /\ forall t, Forall (fun r => 0 <= r) t -> Scan (with_in s (u ++ t)) c = Some (with_in s' (v ++ t), c')) \/
       (s_in s' = m /\ (told s' c' \/ untold s c u s' c' \/ mistold s c u c'))).
  Proof.
    intros Hs E F. pose proof Hs as (H1 & H2 & H3). set (s1 := set_buffer s (b_reset (s_buffer s))). destruct (b_reset_ok _ H2) as [K1 K2]. set (f := tError :: m).
    assert (Hm : Forall item m). { rewrite E in H1. apply Forall_app in H1 as [_ H1]. now inversion H1. }
    assert (Sim : forall t, sim f t s1 (set_buffer (with_in s (u ++ t)) (b_reset (s_buffer s)))).
    { intros t. exists u. split; [exact E|]. split; [reflexivity|]. split; [exact F|]. split; [|exact K1]. intros Eu. cbn in Eu |- *. right. destruct (Z.ltb_spec (s_read s) 0) as [Hr|Hr]; [|lia].
      destruct (H3 Eu Hr) as [_ K]. rewrite E in K. now destruct u. }
    assert (Ag : forall t, agree f t (scanE (scan_fuel s) s1 c) (ModelScanner.scan (scan_fuel s) (set_buffer (with_in s (u ++ t)) (b_reset (s_buffer s))) c))
      by (intros t; apply scan_sim; [right; now exists m|apply Sim|exact K2]).
    assert (Sc : forall t, Forall (fun r => 0 <= r) t -> exists s0 c0 k, ModelScanner.scan (scan_fuel (with_in s (u ++ t))) (set_buffer (with_in s (u ++ t)) (b_reset (s_buffer s))) c = Some (s0, c0, k) /\
      Scan (with_in s (u ++ t)) c = Some (s0, set_token c0 k)).
    { intros t Ft. destruct (Scan_any HU _ c (rsane_sane s u m Hs E F t Ft)) as (s0 & c0 & _ & K & _). unfold Scan, ScanFuel in K |- *. cbn [with_in s_buffer] in K |- *.
      destruct (ModelScanner.scan _ _ c) as [[[s2 c2] k]|]; [|discriminate K]. exists s2, c2, k. auto. }
    assert (Same : forall t s0 c0 k, Forall (fun r => 0 <= r) t -> ModelScanner.scan (scan_fuel s) (set_buffer (with_in s (u ++ t)) (b_reset (s_buffer s))) c = Some (s0, c0, k) ->
      Scan (with_in s (u ++ t)) c = Some (s0, set_token c0 k)).
    { intros t s0 c0 k Ft K. destruct (Sc t Ft) as (s2 & c2 & k2 & J1 & ->). pose proof (scan_fuels _ _ _ _ _ _ K J1) as K'. now injection K' as -> -> ->. }
    unfold ScanE. fold s1. pose proof (Ag []) as A. rewrite app_nil_r in A. pose proof (Sc [] ltac:(constructor)) as (s2 & c2 & k2 & B1 & B2). pose proof (fun s0 c0 k => Same [] s0 c0 k (Forall_nil _)) as Sm. rewrite app_nil_r in B1, B2, Sm.
    assert (Hle : (scan_fuel (with_in s u) <= scan_fuel s)%nat) by exact (fuel_le s u _ E).
    pose proof (scan_most _ _ _ _ _ Hle B1) as B3. rewrite B3 in A.
    destruct (scanE (scan_fuel s) s1 c) as [[[s' c'] k]|] eqn:Es; [|inversion A as [o0 K Ex Ey| | | |]; discriminate (K eq_refl)].
    exists s', (set_token c' k). split; [reflexivity|].
    apply agree_cases in A. destruct A as [(s03 & _ & Hsim)|[((Q1 & Q2) & Q3 & Q4 & Q5)|[((Q1 & Q2) & Q3 & Q4 & (Q5 & Q6) & Q7)|((Q1 & Q2) & Q3 & Q4 & Q5 & Q7)]]].
    - destruct Hsim as (v & V1 & V2 & V3 & V4 & V5). split.
      + split; [rewrite V1; apply Forall_app; split; [|constructor; [now left|exact Hm]]|split; [exact V5|]].
        * revert V3. apply Forall_impl. now right.
        * intros Eu Er. destruct (V4 Eu) as [[_ K]|K]; [discriminate K|lia].
      + left. exists v. split; [exact V1|]. intros t Ft. apply Same; [exact Ft|]. pose proof (Ag t) as A. apply agree_cases in A.
        assert (Len : tError :: s_in s' <> f).
        { intros K. apply (f_equal (@length Z)) in K. rewrite V1 in K. cbn [length] in K. rewrite app_length in K. unfold f in K. cbn [length] in K. lia. }
        destruct A as [(s04 & -> & Hsim)|[((Q1 & _) & _)|[((Q1 & _) & _)|((Q1 & _) & _)]]]; [|now destruct (Len (eq_sym Q1))..].
        destruct Hsim as (v' & V1' & -> & _). rewrite V1 in V1'. apply app_inv_tail in V1' as <-. reflexivity.
    - injection Q1 as Q1. split; [split; [now rewrite <- Q1|split; [exact Q2|rewrite Q3; discriminate]]|]. right. split; [auto|]. left. split; [exact Q4|]. split; [exact Q5|exact Q3].
    - injection Q1 as Q1. split; [split; [now rewrite <- Q1|split; [exact Q2|rewrite Q4; intros _ K; discriminate K]]|]. right. split; [auto|]. right. left. split; [exact Q6|]. split; [exact Q3|]. split; [exact Q4|].
      destruct (Q7 eq_refl) as (s5 & c5 & J1 & -> & _). exists s5, (set_token c5 k). split; [|reflexivity]. apply Sm. congruence.
    - injection Q1 as Q1. split; [split; [now rewrite <- Q1|split; [exact Q2|rewrite Q3; discriminate]]|]. right. split; [auto|]. right. right. split; [exact Q4|]. split; [exact Q5|].
      destruct (Q7 eq_refl) as (s5 & J1). exists s5. apply Sm. congruence.
  Qed.

  Lemma reading_rsane s : reading s -> rsane s.
  Proof.
    induction 1 as [ids items F|s c s' c' H IH E|s T H IH].
    - split; [exact F|]. split; [unfold buffer_ok; cbn; lia|discriminate].
    - destruct (item_split _ (proj1 IH)) as [F|(u & m & E1 & F & _)].
      + rewrite (ScanE_whole s c IH F) in E. destruct (Scan_any HU s c) as (s1 & c1 & u1 & E1 & H1 & _).
        { destruct IH as (_ & K). split; [exact F|exact K]. }
        rewrite E1 in E. injection E as <- <-. apply at_sane in H1. destruct H1 as (J & J2). split; [|exact J2]. revert J. apply Forall_impl. now right.
      + destruct (ScanE_cases s c u m IH E1 F) as (s1 & c1 & E2 & J & _). rewrite E2 in E. now injection E as <- <-.
    - exact IH.
  Qed.

  Theorem read_total s c : reading s -> exists s' c', ScanE s c = Some (s', c').
  Proof.
    intros H. apply reading_rsane in H. destruct (item_split _ (proj1 H)) as [F|(u & m & E1 & F & _)].
    - rewrite (ScanE_whole s c H F). destruct (Scan_any HU s c) as (s1 & c1 & u1 & E1 & _); [|now exists s1, c1]. destruct H as (_ & K). split; [exact F|exact K].
    - destruct (ScanE_cases s c u m H E1 F) as (s1 & c1 & E2 & _). now exists s1, c1.
  Qed.

  Theorem read_same s c : reading s -> Forall (fun r => 0 <= r) (s_in s) -> ScanE s c = Scan s c.
  Proof. intros H. apply ScanE_whole. now apply reading_rsane. Qed.

  Theorem read_failed s c u m s' c' : reading s -> s_in s = u ++ tError :: m -> Forall (fun r => 0 <= r) u -> ScanE s c = Some (s', c') ->
    (exists v, s_in s' = v ++ tError :: m /\ forall t, Forall (fun r => 0 <= r) t -> Scan (with_in s (u ++ t)) c = Some (with_in s' (v ++ t), c')) \/
    (s_in s' = m /\ (told s' c' \/ untold s c u s' c' \/ mistold s c u c')).
  Proof.
    intros H E F E1. destruct (ScanE_cases s c u m (reading_rsane s H) E F) as (s1 & c1 & E2 & _ & J). rewrite E2 in E1. now injection E1 as <- <-.
  Qed.

  Theorem read_again s c m : s_unread s = false -> s_in s = tError :: m -> exists s' c', ScanE s c = Some (s', c') /\ told s' c' /\ s_in s' = m.
  Proof.
    intros H E. unfold ScanE. assert (exists n, scan_fuel s = S n) as [n ->] by (unfold scan_fuel; cbn; eauto). cbn [scanE skipWhitespaceE]. unfold readRuneE. cbn [s_unread s_in set_buffer]. rewrite H, E. cbn [Z.eqb Pos.eqb Z.ltb Z.compare orb].
    eexists _, _. split; [reflexivity|]. now repeat split.
  Qed.

  Theorem read_behind s c : s_unread s = true -> s_read s = 0 ->
    exists s' c', ScanE s c = Some (s', c') /\ c_token c' = tError /\ c_error c' = Some SUnexpectedCharacter /\ s_in s' = s_in s.
  Proof.
    intros H E. destruct zero_plain as (Z1 & Z2 & Z3). unfold ScanE. assert (exists n, scan_fuel s = S n) as [n ->] by (unfold scan_fuel; cbn; eauto). cbn [scanE skipWhitespaceE]. unfold readRuneE. cbn [s_unread s_read s_in set_buffer]. rewrite H, E. cbn [Z.ltb Z.compare orb]. rewrite Z1. cbn [negb].
    unfold commentsE. cbn [Z.ltb Z.compare Z.eqb]. unfold scanTokenE. cbn [Z.eqb orb]. rewrite Z2, Z3. change (IsOpRune 0) with false. cbn [orb]. eexists _, _. split; [reflexivity|]. now repeat split.
  Qed.
End Reader.
