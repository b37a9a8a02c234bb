(** The positions of tokens. *)

From Verif Require Import ModelScanner SpecScanner SpecPosition LemmasBase LemmasValue LemmasScanner LemmasScanText LemmasScanWords LemmasScanTokens LemmasScan LemmasScanAll LemmasScanProps.

Lemma position_nil : position [] 1 0.
Proof. exists [], []. repeat split; [intros []|now left]. Qed.

Lemma position_line text l k : position text l k -> position (text ++ [10]) (l + 1) 0.
Proof.
  intros (a & b & -> & Hb & _ & -> & ->). exists ((a ++ b) ++ [10]), []. rewrite app_nil_r. repeat split; [intros []|right; now exists (a ++ b)|].
  rewrite !count_occ_app. apply (count_occ_not_In Z.eq_dec) in Hb. rewrite Hb. cbn. lia.
Qed.

Lemma position_rune text l k r : r <> 10 -> position text l k -> position (text ++ [r]) l (k + 1).
Proof.
  intros N (a & b & -> & Hb & Ha & -> & ->). exists a, (b ++ [r]). repeat split; [now rewrite app_assoc| |exact Ha|rewrite app_length; cbn; lia].
  rewrite in_app_iff. intros [K|[K|[]]]; [now apply Hb|now apply N].
Qed.

Lemma position_runes u : forall text l k, ~ In 10 u -> position text l k -> position (text ++ u) l (k + Z.of_nat (length u)).
Proof.
  induction u as [|r u IH]; intros text l k N P; [now rewrite app_nil_r, Z.add_0_r|].
  change (r :: u) with ([r] ++ u). rewrite app_assoc. replace (k + _) with (k + 1 + Z.of_nat (length u)) by (rewrite app_length; cbn; lia).
  apply IH; [|apply position_rune; [|exact P]]; intros K; apply N; [now right|now left].
Qed.

Definition moves (s s' : scanner) : Prop :=
  exists k, s_in s = k ++ s_in s' /\ forall text, position text (s_line s) (s_column s) -> position (text ++ k) (s_line s') (s_column s').

Lemma moves_here s s' : s_in s' = s_in s -> s_line s' = s_line s -> s_column s' = s_column s -> moves s s'.
Proof. intros A B C. exists []. split; [now rewrite A|]. intros text. now rewrite app_nil_r, B, C. Qed.

Lemma moves_refl s : moves s s.
Proof. now apply moves_here. Qed.

Lemma moves_trans s1 s2 s3 : moves s1 s2 -> moves s2 s3 -> moves s1 s3.
Proof.
  intros (k & E & P) (k' & E' & P'). exists (k ++ k'). split; [now rewrite E, E', app_assoc|]. intros text H. rewrite app_assoc. auto.
Qed.

Lemma moves_read s r s' : readRune s = (r, s') -> moves s s'.
Proof.
  unfold readRune. destruct (s_unread s); [intros [= _ <-]; now apply moves_here|]. destruct (s_in s) as [|x l] eqn:E; intros [= _ <-].
  - apply moves_here; auto.
  - exists [x]. split; [exact E|]. cbn [s_line s_column]. intros text P. destruct (Z.eqb_spec x 10) as [->|N]; [now apply position_line in P|now apply position_rune].
Qed.

Lemma read_unread s r s' : readRune s = (r, s') -> s_unread s' = false.
Proof. unfold readRune. destruct (s_unread s); [now intros [= _ <-]|]. destruct (s_in s); now intros [= _ <-]. Qed.

Definition keeps (c c' : sctx) : Prop := c_line c' = c_line c /\ c_column c' = c_column c.

Section Scanner.
  Context {X : FloatLib} {L : CaseLib} {U : RuneLib} {B : BufLib}.

  Definition goes (s : scanner) (c : sctx) (s' : scanner) (c' : sctx) : Prop := moves s s' /\ keeps c c'.

  Lemma goes_refl s c : goes s c s c.
  Proof. split; [apply moves_refl|now split]. Qed.
  Lemma goes_trans s1 c1 s2 c2 s3 c3 : goes s1 c1 s2 c2 -> goes s2 c2 s3 c3 -> goes s1 c1 s3 c3.
  Proof. intros [M [K1 K2]] [M' [K1' K2']]. split; [now apply (moves_trans _ s2)|]. split; congruence. Qed.
  Lemma goes_read s c r s' : readRune s = (r, s') -> goes s c s' c.
  Proof. intros E. split; [now apply moves_read in E|now split]. Qed.
  Lemma goes_here s c s' c' : s_in s' = s_in s -> s_line s' = s_line s -> s_column s' = s_column s -> c_line c' = c_line c -> c_column c' = c_column c -> goes s c s' c'.
  Proof. intros. split; [now apply moves_here|now split]. Qed.

  Ltac here := apply goes_here; reflexivity.
  Tactic Notation "take" ident(r) ident(s1) :=
    match goal with
    | |- context[readRune ?s] => let E := fresh "E" in destruct (readRune s) as [r s1] eqn:E; apply moves_read in E
    end.
  Ltac via s1 c1 := apply (goes_trans _ _ s1 c1); [split; [assumption|now split]|].

  Lemma identifierLoop_moves fuel : forall s r s', identifierLoop fuel s r = Some s' -> moves s s'.
  Proof.
    induction fuel as [|fuel IH]; intros s r s'; cbn [identifierLoop]; [discriminate|]. take r1 s1.
    apply (moves_trans s) in E; [|now apply moves_here]. destruct (r1 =? tEOF); [now intros [= <-]|].
    destruct (_ && _); [intros [= <-]; now apply (moves_trans _ _ _ E), moves_here|]. intros K. apply IH in K. now apply (moves_trans _ _ _ E).
  Qed.

  Lemma numberLoop_moves fuel : forall s d r s' d', numberLoop fuel s d r = Some (s', d') -> moves s s'.
  Proof.
    induction fuel as [|fuel IH]; intros s d r s' d'; cbn [numberLoop]; [discriminate|]. take r1 s1.
    apply (moves_trans s) in E; [|now apply moves_here]. destruct (r1 =? tEOF); [now intros [= <- _]|].
    destruct (_ && _); [intros K; apply IH in K; now apply (moves_trans _ _ _ E)|].
    destruct (negb _); [intros [= <- _]; now apply (moves_trans _ _ _ E), moves_here|]. intros K. apply IH in K. now apply (moves_trans _ _ _ E).
  Qed.

  Lemma parameterLoop_moves fuel : forall s r s', parameterLoop fuel s r = Some s' -> moves s s'.
  Proof.
    induction fuel as [|fuel IH]; intros s r s'; cbn [parameterLoop]; [discriminate|]. take r1 s1.
    apply (moves_trans s) in E; [|now apply moves_here]. destruct (r1 =? tEOF); [now intros [= <-]|].
    destruct (negb _); [intros [= <-]; now apply (moves_trans _ _ _ E), moves_here|]. intros K. apply IH in K. now apply (moves_trans _ _ _ E).
  Qed.

  Lemma quotedIdentifierLoop_moves fuel : forall s d s' b, quotedIdentifierLoop fuel s d = Some (s', b) -> moves s s'.
  Proof.
    induction fuel as [|fuel IH]; intros s d s' b; cbn [quotedIdentifierLoop]; [discriminate|]. take r1 s1.
    destruct (r1 =? tEOF); [now intros [= <- _]|]. destruct (r1 =? d); [now intros [= <- _]|].
    intros K. apply IH in K. apply (moves_trans _ _ _ E). revert K. apply moves_trans. now apply moves_here.
  Qed.

  Lemma scanIdentifier_goes fuel s c r s' c' t : scanIdentifier fuel s c r = Some (s', c', t) -> goes s c s' c'.
  Proof.
    unfold scanIdentifier. destruct (identifierLoop fuel s r) as [s1|] eqn:E; [|discriminate]. apply identifierLoop_moves in E.
    destruct (ID _ _ _) as [t1 id]. intros [= <- <- _]. via s1 c. here.
  Qed.
  Lemma scanNumber_goes fuel s c r sg s' c' t : scanNumber fuel s c r sg = Some (s', c', t) -> goes s c s' c'.
  Proof.
    unfold scanNumber. destruct (numberLoop fuel s false r) as [[s1 d]|] eqn:E; [|discriminate]. apply numberLoop_moves in E.
    destruct d; [destruct (x_parse_float _)|destruct (parse_int _)]; intros [= <- <- _]; via s1 c; here.
  Qed.
  Lemma scanParameter_goes fuel s c r s' c' t : scanParameter fuel s c r = Some (s', c', t) -> goes s c s' c'.
  Proof.
    unfold scanParameter. destruct (parameterLoop fuel s r) as [s1|] eqn:E; [|discriminate]. apply parameterLoop_moves in E.
    destruct (parse_int _) as [i|]; [destruct (i =? 0)|]; intros [= <- <- _]; via s1 c; here.
  Qed.
  Lemma scanQuotedIdentifier_goes fuel s c d s' c' t : scanQuotedIdentifier fuel s c d = Some (s', c', t) -> goes s c s' c'.
  Proof.
    unfold scanQuotedIdentifier. destruct (quotedIdentifierLoop fuel s d) as [[s1 b]|] eqn:E; [|discriminate]. apply quotedIdentifierLoop_moves in E.
    destruct b; [destruct (ID _ _ _) as [t1 id]|]; intros [= <- <- _]; via s1 c; here.
  Qed.

  Lemma scanHexDigit_goes s c s' c' d : scanHexDigit s c = (s', c', d) -> goes s c s' c'.
  Proof.
    unfold scanHexDigit. take r1 s1. destruct (_ && _); [intros [= <- <- _]; via s1 c; here|]. destruct (_ && _); [intros [= <- <- _]; via s1 c; here|].
    destruct (_ && _); [intros [= <- <- _]; via s1 c; here|]. destruct (r1 =? tError); intros [= <- <- _]; via s1 c; here.
  Qed.
  Lemma scanOctalDigit_goes s c s' c' d : scanOctalDigit s c = (s', c', d) -> goes s c s' c'.
  Proof.
    unfold scanOctalDigit. take r1 s1. destruct (_ && _); [intros [= <- <- _]; via s1 c; here|].
    destruct (r1 =? tError); intros [= <- <- _]; via s1 c; here.
  Qed.
  Lemma scanHex_goes s c s' c' d : scanHex s c = (s', c', d) -> goes s c s' c'.
  Proof.
    unfold scanHex. destruct (scanHexDigit s c) as [[s1 c1] d1] eqn:E. apply scanHexDigit_goes in E. destruct d1; [|now intros [= <- <- _]].
    destruct (scanHexDigit s1 c1) as [[s2 c2] d2] eqn:E2. apply scanHexDigit_goes in E2. apply (goes_trans _ _ _ _ _ _ E) in E2. destruct d2; now intros [= <- <- _].
  Qed.
  Lemma scanOctal_goes s c r s' c' d : scanOctal s c r = (s', c', d) -> goes s c s' c'.
  Proof.
    unfold scanOctal. destruct (scanOctalDigit s c) as [[s1 c1] d1] eqn:E. apply scanOctalDigit_goes in E. destruct d1; [|now intros [= <- <- _]].
    destruct (scanOctalDigit s1 c1) as [[s2 c2] d2] eqn:E2. apply scanOctalDigit_goes in E2. apply (goes_trans _ _ _ _ _ _ E) in E2. destruct d2; now intros [= <- <- _].
  Qed.
  Lemma unicodeLoop_goes n : forall s c u s' c' d, unicodeLoop n s c u = (s', c', d) -> goes s c s' c'.
  Proof.
    induction n as [|n IH]; intros s c u s' c' d; cbn [unicodeLoop]; [intros [= <- <- _]; apply goes_refl|].
    destruct (scanHexDigit s c) as [[s1 c1] d1] eqn:E. apply scanHexDigit_goes in E. destruct d1; [|now intros [= <- <- _]].
    intros K. apply IH in K. now apply (goes_trans _ _ _ _ _ _ E).
  Qed.
  Lemma scanUnicode_goes n s c s' c' d : scanUnicode s c n = (s', c', d) -> goes s c s' c'.
  Proof.
    unfold scanUnicode. destruct (unicodeLoop n s c 0) as [[s1 c1] d1] eqn:E. apply unicodeLoop_goes in E. destruct d1; now intros [= <- <- _].
  Qed.
  Lemma scanEscape_goes s c s' c' r : scanEscape s c = (s', c', r) -> goes s c s' c'.
  Proof.
    unfold scanEscape. take r1 s1. assert (G : goes s c s1 c) by (via s1 c; here).
    repeat (match goal with |- context[if ?b then _ else _] => destruct b end; [try (now intros [= <- <- _]);
      intros K; (apply scanHex_goes in K || apply scanUnicode_goes in K || apply scanOctal_goes in K); now apply (goes_trans _ _ _ _ _ _ G)|]). now intros [= <- <- _].
  Qed.
  Lemma quotedRune_goes s c e r s' c' o : quotedRune s c e r = (s', c', o) -> goes s c s' c'.
  Proof.
    unfold quotedRune. destruct (_ && _); [|intros [= <- <- _]; apply goes_refl]. destruct (scanEscape s c) as [[s1 c1] r1] eqn:E. apply scanEscape_goes in E.
    destruct (r1 =? tEOF); [intros [= <- <- _]; apply (goes_trans _ _ _ _ _ _ E); here|]. destruct (r1 =? tError); now intros [= <- <- _].
  Qed.
  Lemma quoteSpace_moves fuel : forall s r nl s' r' nl', quoteSpace fuel s r nl = Some (s', r', nl') -> moves s s'.
  Proof.
    induction fuel as [|fuel IH]; intros s r nl s' r' nl'; cbn [quoteSpace]; [discriminate|].
    destruct (x_is_space r); [|intros [= <- _ _]; apply moves_refl]. take r1 s1. intros K. apply IH in K. now apply (moves_trans _ _ _ E).
  Qed.
  Lemma scanQuotedConstant_goes fuel : forall s c e s' c' t, scanQuotedConstant fuel s c e = Some (s', c', t) -> goes s c s' c'.
  Proof.
    induction fuel as [|fuel IH]; intros s c e s' c' t; cbn [scanQuotedConstant]; [discriminate|]. take r1 s1.
    destruct (r1 =? tEOF); [intros [= <- <- _]; via s1 c; here|]. destruct (r1 =? tError); [intros [= <- <- _]; via s1 c; here|].
    assert (Put : forall s2 r2, moves s s2 -> match quotedRune s2 c e r2 with
              | (s, c, None) => Some (s, c, tError)
              | (s, c, Some r) => scanQuotedConstant fuel (writeRune s r) c e
              end = Some (s', c', t) -> goes s c s' c').
    { intros s2 r2 M. destruct (quotedRune s2 c e r2) as [[s3 c3] o] eqn:Q. apply quotedRune_goes in Q.
      assert (G : goes s c s3 c3) by (apply (goes_trans _ _ s2 c); [split; [exact M|now split]|exact Q]).
      destruct o as [r3|]; [|now intros [= <- <- _]]. intros K. apply IH in K. apply (goes_trans _ _ _ _ _ _ G).
      apply (goes_trans _ _ (writeRune s3 r3) c3); [here|exact K]. }
    destruct (r1 =? 39); [|now apply Put]. destruct (readRune s1) as [r2 s2] eqn:E2. apply moves_read in E2. apply (moves_trans _ _ _ E) in E2.
    destruct (x_is_space r2).
    - destruct (quoteSpace (S fuel) s2 r2 false) as [[[s3 r3] nl]|] eqn:Q; [|discriminate]. apply quoteSpace_moves in Q. apply (moves_trans _ _ _ E2) in Q.
      destruct (_ && _); [intros K; apply IH in K; via s3 c; exact K|]. destruct (r3 =? tError); intros [= <- <- _]; via s3 c; here.
    - destruct (negb _); [intros [= <- <- _]; via s2 c; here|]. now apply Put.
  Qed.
  Lemma scanString_goes fuel s c e s' c' t : scanString fuel s c e = Some (s', c', t) -> goes s c s' c'.
  Proof.
    unfold scanString. destruct (scanQuotedConstant fuel s c e) as [[[s1 c1] r1]|] eqn:E; [|discriminate]. apply scanQuotedConstant_goes in E.
    destruct (r1 =? tError); intros [= <- <- _]; [exact E|]. apply (goes_trans _ _ _ _ _ _ E). here.
  Qed.
  Lemma scanBytes_goes fuel s c e s' c' t : scanBytes fuel s c e = Some (s', c', t) -> goes s c s' c'.
  Proof.
    unfold scanBytes. destruct (scanQuotedConstant fuel s c e) as [[[s1 c1] r1]|] eqn:E; [|discriminate]. apply scanQuotedConstant_goes in E.
    destruct (r1 =? tError); intros [= <- <- _]; [exact E|]. apply (goes_trans _ _ _ _ _ _ E). here.
  Qed.
  Lemma scanHexBytes_goes fuel : forall s c s' c' t, scanHexBytes fuel s c = Some (s', c', t) -> goes s c s' c'.
  Proof.
    induction fuel as [|fuel IH]; intros s c s' c' t; cbn [scanHexBytes]; [discriminate|]. take r1 s1.
    destruct (r1 =? tEOF); [intros [= <- <- _]; via s1 c; here|]. destruct (r1 =? tError); [intros [= <- <- _]; via s1 c; here|].
    destruct (r1 =? 39); [intros [= <- <- _]; via s1 c; here|].
    assert (G : goes s c (unreadRune s1) c) by (via s1 c; here).
    destruct (scanHexDigit (unreadRune s1) c) as [[s2 c2] d1] eqn:D. apply scanHexDigit_goes in D. apply (goes_trans _ _ _ _ _ _ G) in D. destruct d1; [|now intros [= <- <- _]].
    destruct (scanHexDigit s2 c2) as [[s3 c3] d2] eqn:D2. apply scanHexDigit_goes in D2. apply (goes_trans _ _ _ _ _ _ D) in D2. destruct d2; [|now intros [= <- <- _]].
    intros K. apply IH in K. apply (goes_trans _ _ _ _ _ _ D2). revert K. apply goes_trans. here.
  Qed.

  Lemma scanToken_goes fuel s c r s' c' t : scanToken fuel s c r = Some (s', c', t) -> moves s s' /\ c_line c' = s_line s /\ c_column c' = s_column s.
  Proof.
    enough (G : scanToken fuel s c r = Some (s', c', t) -> goes s (set_position c (s_line s) (s_column s)) s' c') by (intros K; apply G in K; exact K).
    unfold scanToken. set (c0 := set_position c _ _).
    destruct (readRune s) as [r1 s1] eqn:E. apply moves_read in E. assert (G1 : goes s c0 s1 c0) by (split; [exact E|now split]).
    assert (G2 : goes s c0 (unreadRune s1) c0) by (apply (goes_trans _ _ _ _ _ _ G1); here).
    destruct (readRune (writeRune s r)) as [r2 s2] eqn:E2. apply moves_read in E2. assert (G3 : goes s c0 s2 c0) by (apply (goes_trans _ _ (writeRune s r) c0); [here|split; [exact E2|now split]]).
    Ltac ends_in := repeat match goal with |- context[if ?b then _ else _] => destruct b end.
    ends_in; try (now intros [= <- <- _]); try (intros K;
      match type of K with
      | scanString _ _ _ _ = _ => apply scanString_goes in K
      | scanBytes _ _ _ _ = _ => apply scanBytes_goes in K
      | scanHexBytes _ _ _ = _ => apply scanHexBytes_goes in K
      | scanIdentifier _ _ _ _ = _ => apply scanIdentifier_goes in K
      | scanNumber _ _ _ _ _ = _ => apply scanNumber_goes in K
      | scanParameter _ _ _ _ = _ => apply scanParameter_goes in K
      | scanQuotedIdentifier _ _ _ _ = _ => apply scanQuotedIdentifier_goes in K
      end; (exact K || exact (goes_trans _ _ _ _ _ _ G1 K) || exact (goes_trans _ _ _ _ _ _ G2 K))).
    all: try (intros [= <- <- _]; (apply (goes_trans _ _ _ _ _ _ G3); here) || (apply (goes_trans _ _ _ _ _ _ G1); here) || here).
    destruct (Operators r r2); intros [= <- <- _]; apply (goes_trans _ _ _ _ _ _ G3); here.
  Qed.

  Lemma skipWhitespace_moves fuel : forall s r s', skipWhitespace fuel s = Some (r, s') -> moves s s' /\ s_unread s' = false.
  Proof.
    induction fuel as [|fuel IH]; intros s r s'; cbn [skipWhitespace]; [discriminate|]. destruct (readRune s) as [r1 s1] eqn:E. pose proof (read_unread _ _ _ E) as N. apply moves_read in E.
    destruct (_ || _); [now intros [= _ <-]|]. intros K. apply IH in K. destruct K as [K K']. split; [now apply (moves_trans _ _ _ E)|exact K'].
  Qed.
  Lemma lineComment_moves fuel : forall s o s', lineComment fuel s = Some (o, s') -> moves s s'.
  Proof.
    induction fuel as [|fuel IH]; intros s o s'; cbn [lineComment]; [discriminate|]. take r1 s1.
    destruct (r1 <? 0); [now intros [= _ <-]|]. destruct (r1 =? 10); [now intros [= _ <-]|]. intros K. apply IH in K. now apply (moves_trans _ _ _ E).
  Qed.
  Lemma blockComment_moves fuel : forall s p o s', blockComment fuel s p = Some (o, s') -> moves s s'.
  Proof.
    induction fuel as [|fuel IH]; intros s p o s'; cbn [blockComment]; [discriminate|]. take r1 s1.
    destruct (r1 <? 0); [now intros [= _ <-]|]. destruct (_ && _); [now intros [= _ <-]|]. intros K. apply IH in K. now apply (moves_trans _ _ _ E).
  Qed.
  Definition comment_at (o : comment) : scanner := match o with Again s => s | Return _ s => s | Proceed s => s end.
  Lemma comments_moves fuel s r o : comments fuel s r = Some o -> moves s (comment_at o).
  Proof.
    unfold comments. destruct (readRune s) as [r1 s1] eqn:E. apply moves_read in E.
    assert (G : moves s (unreadRune s1)) by (apply (moves_trans _ _ _ E); now apply moves_here).
    destruct (r =? tMinus); [|destruct (r =? tSlash); [|intros [= <-]; apply moves_refl]].
    - destruct (r1 =? tMinus).
      + destruct (lineComment fuel s1) as [[[x|] s2]|] eqn:D; intros [= <-]; apply lineComment_moves in D; now apply (moves_trans _ _ _ E).
      + destruct (r1 <? 0); now intros [= <-].
    - destruct (r1 =? tStar).
      + destruct (blockComment fuel s1 0) as [[[x|] s2]|] eqn:D; intros [= <-]; apply blockComment_moves in D; now apply (moves_trans _ _ _ E).
      + destruct (r1 <? 0); now intros [= <-].
  Qed.

  Lemma scan_moves fuel : forall s c s' c' t, scan fuel s c = Some (s', c', t) -> moves s s'.
  Proof.
    induction fuel as [|fuel IH]; intros s c s' c' t; cbn [scan]; [discriminate|].
    destruct (skipWhitespace (S fuel) s) as [[r s1]|] eqn:E; [|discriminate]. apply skipWhitespace_moves in E. destruct E as [E _].
    destruct (r <? 0); [now intros [= <- _ _]|]. destruct (r =? 59); [now intros [= <- _ _]|].
    destruct (comments (S fuel) s1 r) as [o|] eqn:D; [|discriminate]. apply comments_moves in D. apply (moves_trans _ _ _ E) in D. destruct o as [s2|r2 s2|s2]; cbn [comment_at] in D.
    - intros K. apply IH in K. now apply (moves_trans _ _ _ D).
    - now intros [= <- _ _].
    - intros K. apply scanToken_goes in K. apply (moves_trans _ _ _ D). apply K.
  Qed.

  Lemma Scan_moves s c s' c' : Scan s c = Some (s', c') -> moves s s'.
  Proof.
    unfold Scan, ScanFuel. destruct (scan _ _ c) as [[[s1 c1] t]|] eqn:E; [|discriminate]. intros [= <- <-]. apply scan_moves in E.
    revert E. apply moves_trans. now apply moves_here.
  Qed.

  Context (HU : RuneLib_scan U).

  Lemma rest_in s : s_unread s = false -> rest s = s_in s.
  Proof. unfold rest. now intros ->. Qed.

  (* where [scan] is when it has left white space and comments behind *)
  Lemma scan_reaches fuel : forall g s c r w t, gap g -> begins r w \/ r = 59 -> (length (g ++ r :: w) + 2 < fuel)%nat -> at_ s (g ++ r :: w) [] t ->
    exists f s1, moves s s1 /\ s_in s1 = w /\ s_unread s1 = false /\ at_ s1 w [] t /\
      scan fuel s c = (if r =? 59 then Some (s1, c, -2)
                       else match comments (S f) s1 r with
                            | None => None
                            | Some (Again s) => scan f s c
                            | Some (Return r2 s) => Some (s, c, r2)
                            | Some (Proceed s) => scanToken (S f) s c r
                            end).
  Proof.
    induction fuel as [|fuel IH]; intros g s c r w t G Hb Hf H; [lia|]. cbn [scan].
    pose proof (at_pos _ _ _ _ H) as Pl. apply Forall_app in Pl. destruct Pl as [_ Pl]. inversion Pl as [|? ? Pr Pw]; subst.
    assert (Sr : x_is_space r = false) by (destruct Hb as [Hb| ->]; [apply Hb|apply (space_first HU); cbn; tauto]).
    destruct (skipWhitespace_spec (S fuel) s (g ++ r :: w) [] t ltac:(lia) H) as (s1 & E & H1). rewrite E. apply skipWhitespace_moves in E. destruct E as [M1 U1].
    destruct (gap_decomp g G) as (sp & F & D). destruct D as [->|[(u & g' & -> & Hu & G')|(u & g' & -> & Hu & G')]].
    - rewrite (span_app x_is_space sp) in H1 by (assumption || (cbn; rewrite Sr; discriminate)).
      rewrite (span_app x_is_space sp) by (assumption || (cbn; rewrite Sr; discriminate)).
      cbn [fst snd app hd_rune tl] in *. destruct (Z.ltb_spec r 0); [lia|].
      exists fuel, s1. split; [exact M1|]. split; [rewrite <- rest_in by exact U1; apply H1|]. split; [exact U1|]. split; [exact H1|reflexivity].
    - rewrite <- app_assoc in *. rewrite (span_app x_is_space sp) in H1 by (assumption || (cbn; rewrite (space_first HU) by (cbn; tauto); discriminate)).
      rewrite (span_app x_is_space sp) by (assumption || (cbn; rewrite (space_first HU) by (cbn; tauto); discriminate)).
      cbn [fst snd app hd_rune tl] in *. change (45 <? 0) with false. change (45 =? 59) with false. cbv match. unfold comments at 1. cbn [Z.eqb Pos.eqb].
      destruct (read_cons _ _ _ _ _ H1) as (s2 & R & H2 & H3 & Hp). rewrite R. cbn [Z.eqb Pos.eqb]. apply moves_read in R. apply (moves_trans _ _ _ M1) in R.
      rewrite <- app_assoc in *. cbn [app] in *.
      assert (Hlen : (length (u ++ 10%Z :: g' ++ r :: w) + 2 < fuel)%nat) by (rewrite app_length in Hf; cbn [length] in Hf; lia).
      destruct (lineComment_spec (S fuel) s2 (u ++ 10 :: g' ++ r :: w) [] t ltac:(lia) H2) as (s3 & H4 & E3). rewrite E3. apply lineComment_moves in E3. apply (moves_trans _ _ _ R) in E3.
      assert (Sp : span (fun r => negb (r =? 10)) (u ++ 10 :: g' ++ r :: w) = (u, 10 :: g' ++ r :: w)).
      { apply span_app; [|cbn; discriminate]. apply Forall_forall. intros x Hx'. apply Bool.negb_true_iff, Z.eqb_neq. intros ->. contradiction. }
      rewrite Sp in *. cbn [fst snd tl] in *. destruct (IH g' s3 c r w t G' Hb) as (f & s4 & M4 & I4); [rewrite app_length in Hlen; cbn in Hlen; lia|exact H4|].
      exists f, s4. split; [now apply (moves_trans _ _ _ E3)|exact I4].
    - rewrite <- app_assoc in *. rewrite (span_app x_is_space sp) in H1 by (assumption || (cbn; rewrite (space_first HU) by (cbn; tauto); discriminate)).
      rewrite (span_app x_is_space sp) by (assumption || (cbn; rewrite (space_first HU) by (cbn; tauto); discriminate)).
      cbn [fst snd app hd_rune tl] in *. change (47 <? 0) with false. change (47 =? 59) with false. cbv match. unfold comments at 1. cbn [Z.eqb Pos.eqb].
      destruct (read_cons _ _ _ _ _ H1) as (s2 & R & H2 & H3 & Hp). rewrite R. cbn [Z.eqb Pos.eqb]. apply moves_read in R. apply (moves_trans _ _ _ M1) in R.
      rewrite <- app_assoc in *. cbn [app] in *.
      assert (Hlen : (length (u ++ 42%Z :: 47%Z :: g' ++ r :: w) + 2 < fuel)%nat) by (rewrite app_length in Hf; cbn [length] in Hf; lia).
      destruct (blockComment_spec (S fuel) s2 0 (u ++ 42 :: 47 :: g' ++ r :: w) [] t ltac:(lia) H2) as (s3 & D).
      change (u ++ 42 :: 47 :: g' ++ r :: w) with (u ++ [42; 47] ++ g' ++ r :: w) in D.
      rewrite (proj2 (block_span_some 0 (u ++ [42; 47] ++ g' ++ r :: w) (g' ++ r :: w) ltac:(lia)) ltac:(now exists u)) in D. destruct D as [H4 E3]. rewrite E3.
      apply blockComment_moves in E3. apply (moves_trans _ _ _ R) in E3.
      destruct (IH g' s3 c r w t G' Hb) as (f & s4 & M4 & I4); [rewrite app_length in Hlen; cbn in Hlen; lia|exact H4|].
      exists f, s4. split; [now apply (moves_trans _ _ _ E3)|exact I4].
  Qed.

  (** ** The states *)

  Lemma tokenizing_scanning input s : tokenizing input s -> scanning input s.
  Proof. induction 1; [now apply sc_start|now apply (sc_scan _ s c s' c')|now apply sc_ids|now apply sc_reader|now apply sc_data]. Qed.

  Lemma dropLine_spec l : forall l', dropLine l = (l', true) -> exists u, l = u ++ 10 :: l' /\ ~ In 10 u.
  Proof.
    induction l as [|r l IH]; intros l'; cbn [dropLine]; [discriminate|]. destruct (Z.eqb_spec r 10) as [->|N].
    - intros [= <-]. exists []. now split.
    - intros K. apply IH in K. destruct K as (u & -> & Hu). exists (r :: u). split; [reflexivity|]. intros [K|K]; [now apply N|now apply Hu].
  Qed.
  Lemma dropLine_none l : forall l', dropLine l = (l', false) -> l' = [].
  Proof. induction l as [|r l IH]; intros l'; cbn [dropLine]; [now intros [= <-]|]. destruct (r =? 10); [discriminate|apply IH]. Qed.

  Lemma RuneReader_moves s : (exists l, dropLine (s_in s) = (l, true)) -> moves s (RuneReader s).
  Proof.
    intros [l E]. unfold RuneReader. rewrite E. destruct (dropLine_spec _ _ E) as (u & I & N). exists (u ++ [10]). cbn [s_in s_line s_column].
    split; [now rewrite I, <- app_assoc|]. intros text P. rewrite app_assoc. apply (position_line _ _ (s_column s + Z.of_nat (length u))). apply position_runes; [exact N|exact P].
  Qed.

  Lemma data_moves s : moves s (snd (runeReaderReadRune s)).
  Proof.
    unfold runeReaderReadRune. destruct (s_in s) as [|x l] eqn:E; cbn [snd]; [apply moves_refl|].
    exists [x]. split; [exact E|]. cbn [s_line s_column]. intros text P. destruct (Z.eqb_spec x 10) as [->|N]; [now apply position_line in P|now apply position_rune].
  Qed.

  Definition placed (input : list Z) (s : scanner) : Prop := exists done, input = done ++ s_in s /\ position done (s_line s) (s_column s).

  Lemma placed_moves input s s' : placed input s -> moves s s' -> placed input s'.
  Proof. intros (done & E & P) (k & E' & P'). exists (done ++ k). split; [now rewrite E, E', app_assoc|auto]. Qed.

  Lemma tokenizing_placed input s : tokenizing input s -> rest s = [] \/ placed input s.
  Proof.
    induction 1 as [ids input F|input s c s' c' H IH E|input s t H IH|input s H IH N|input s H IH N].
    - right. exists []. split; [reflexivity|exact position_nil].
    - destruct IH as [IH|IH]; [left|right; apply (placed_moves _ _ _ IH); now apply Scan_moves in E].
      destruct (in_order HU _ _ _ _ _ (tokenizing_scanning _ _ H) E) as (w & R & _). rewrite IH in R. symmetry in R. now apply app_eq_nil in R.
    - exact IH.
    - rewrite (rest_in _ N) in IH. assert (N' : s_unread (RuneReader s) = false) by (unfold RuneReader; now destruct (dropLine (s_in s))). rewrite (rest_in _ N').
      destruct (dropLine (s_in s)) as [l nl] eqn:D. destruct nl; [|left; unfold RuneReader; rewrite D; now apply dropLine_none in D].
      destruct IH as [IH|IH]; [rewrite IH in D; discriminate|]. right. apply (placed_moves _ _ _ IH), RuneReader_moves. now exists l.
    - rewrite (rest_in _ N) in IH. assert (N' : s_unread (snd (runeReaderReadRune s)) = false) by (unfold runeReaderReadRune; now destruct (s_in s)). rewrite (rest_in _ N').
      destruct IH as [IH|IH]; [left; unfold runeReaderReadRune; now rewrite IH|]. right. apply (placed_moves _ _ _ IH), data_moves.
  Qed.

  Lemma tokenizing_before input s : tokenizing input s -> exists before, input = before ++ rest s.
  Proof.
    induction 1 as [ids input F|input s c s' c' H IH E|input s t H IH|input s H IH N|input s H IH N].
    - now exists [].
    - destruct IH as [b ->]. destruct (in_order HU _ _ _ _ _ (tokenizing_scanning _ _ H) E) as (w & R & _). exists (b ++ w). now rewrite R, app_assoc.
    - exact IH.
    - destruct IH as [b E]. rewrite (rest_in _ N) in E. assert (N' : s_unread (RuneReader s) = false) by (unfold RuneReader; now destruct (dropLine (s_in s))). rewrite (rest_in _ N').
      unfold RuneReader. destruct (dropLine (s_in s)) as [l nl] eqn:D. cbn [s_in]. destruct nl.
      + destruct (dropLine_spec _ _ D) as (u & I & _). exists (b ++ u ++ [10]). rewrite E, I. now rewrite <- !app_assoc.
      + apply dropLine_none in D. subst l. exists input. now rewrite app_nil_r.
    - destruct IH as [b E]. rewrite (rest_in _ N) in E. assert (N' : s_unread (snd (runeReaderReadRune s)) = false) by (unfold runeReaderReadRune; now destruct (s_in s)). rewrite (rest_in _ N').
      unfold runeReaderReadRune. destruct (s_in s) as [|x l] eqn:D; cbn [snd s_in]; [exists b; now rewrite D|]. exists (b ++ [x]). now rewrite E, <- app_assoc.
  Qed.

  (** ** Positions *)

  Lemma moves_position input before s s1 k w : placed input s -> input = before ++ rest s -> moves s s1 -> rest s = k ++ w -> s_in s1 = w ->
    position (before ++ k) (s_line s1) (s_column s1).
  Proof.
    intros (done & E & P) Hb (d & M1 & M2) R I. apply M2 in P. replace (before ++ k) with (done ++ d); [exact P|].
    apply (app_inv_tail w). rewrite <- !app_assoc. rewrite <- R, <- Hb, E, M1, I. reflexivity.
  Qed.

  Lemma token_position input before s c g r w s' c' : tokenizing input s -> input = before ++ rest s -> rest s = g ++ r :: w -> gap g ->
    begins r w -> r <> 45 -> r <> 47 -> Scan s c = Some (s', c') -> position (before ++ g ++ [r]) (c_line c') (c_column c').
  Proof.
    intros T Hb R G Hr N45 N47. destruct (tokenizing_placed _ _ T) as [K|Pl]; [rewrite K in R; destruct g; discriminate|].
    pose proof (at_reset _ _ _ _ (at_self s (scanning_sane HU _ _ (tokenizing_scanning _ _ T)))) as H. pose proof (rest_length s). unfold Scan, ScanFuel, scan_fuel. rewrite R in *.
    set (s0 := set_buffer s _) in *.
    destruct (scan_reaches (4 + length (s_in s)) g s0 c r w _ G (or_introl Hr) ltac:(lia) H) as (f & s1 & M & I & _ & _ & E). rewrite E.
    destruct Hr as (_ & N59 & _). destruct (Z.eqb_spec r 59); [contradiction|]. unfold comments. destruct (Z.eqb_spec r 45); [contradiction|]. destruct (Z.eqb_spec r 47); [contradiction|].
    destruct (scanToken (S f) s1 c r) as [[[s2 c2] tk]|] eqn:K; [|discriminate]. apply scanToken_goes in K. destruct K as (_ & K1 & K2). intros [= <- <-]. cbn [set_token c_line c_column]. rewrite K1, K2.
    apply (moves_position input before s0 s1 (g ++ [r]) w); [exact Pl|now rewrite Hb; f_equal; destruct H|exact M| |exact I].
    rewrite <- app_assoc. cbn [app]. apply H.
  Qed.

  Lemma sign_position input before s c g r x w s' c' : tokenizing input s -> input = before ++ rest s -> rest s = g ++ r :: x :: w -> gap g ->
    begins r (x :: w) -> (r = 45 \/ r = 47) -> Scan s c = Some (s', c') -> position (before ++ g ++ [r; x]) (c_line c') (c_column c').
  Proof.
    intros T Hb R G Hr D. destruct (tokenizing_placed _ _ T) as [K|Pl]; [rewrite K in R; destruct g; discriminate|].
    pose proof (at_reset _ _ _ _ (at_self s (scanning_sane HU _ _ (tokenizing_scanning _ _ T)))) as H. pose proof (rest_length s). unfold Scan, ScanFuel, scan_fuel. rewrite R in *.
    set (s0 := set_buffer s _) in *.
    destruct (scan_reaches (4 + length (s_in s)) g s0 c r (x :: w) _ G (or_introl Hr) ltac:(lia) H) as (f & s1 & M & I & U1 & A & E). rewrite E.
    destruct (read_cons _ _ _ _ _ A) as (s2 & Rd & A2 & _ & Px). pose proof (read_unread _ _ _ Rd) as U2. pose proof (moves_read _ _ _ Rd) as M2. apply (moves_trans _ _ _ M) in M2.
    assert (I2 : s_in s2 = w) by (rewrite <- (rest_in _ U2); apply A2).
    assert (C : comments (S f) s1 r = Some (Proceed (unreadRune s2))).
    { unfold comments. rewrite Rd. destruct Hr as (_ & _ & N1 & N2). destruct D as [->| ->]; cbn [Z.eqb Pos.eqb].
      - destruct (Z.eqb_spec x 45) as [->|_]; [now elim (N1 w)|]. destruct (Z.ltb_spec x 0); [lia|reflexivity].
      - destruct (Z.eqb_spec x 42) as [->|_]; [now elim (N2 w)|]. destruct (Z.ltb_spec x 0); [lia|reflexivity]. }
    rewrite C. destruct (Z.eqb_spec r 59); [lia|].
    destruct (scanToken (S f) (unreadRune s2) c r) as [[[s3 c3] tk]|] eqn:K; [|discriminate]. apply scanToken_goes in K. destruct K as (_ & K1 & K2). intros [= <- <-]. cbn [set_token c_line c_column]. rewrite K1, K2.
    cbn [unreadRune s_line s_column].
    apply (moves_position input before s0 s2 (g ++ [r; x]) w); [exact Pl|now rewrite Hb; f_equal; destruct H|exact M2| |exact I2].
    rewrite <- app_assoc. cbn [app]. apply H.
  Qed.

  Lemma end_position input s c g w s' c' : tokenizing input s -> rest s = g ++ 59 :: w -> gap g -> Scan s c = Some (s', c') -> c' = set_token c (-2).
  Proof.
    intros T R G. pose proof (at_reset _ _ _ _ (at_self s (scanning_sane HU _ _ (tokenizing_scanning _ _ T)))) as H. pose proof (rest_length s). unfold Scan, ScanFuel, scan_fuel. rewrite R in *.
    destruct (scan_reaches (4 + length (s_in s)) g _ c 59 w _ G (or_intror eq_refl) ltac:(lia) H) as (f & s1 & M & I & _ & _ & E). rewrite E. now intros [= _ <-].
  Qed.

  Lemma eof_position input s c g e s' c' : tokenizing input s -> rest s = g ++ e -> gap g -> no_token e -> Scan s c = Some (s', c') -> c' = set_token c (-1).
  Proof.
    intros T R G N E. destruct (dropped HU _ _ c _ _ (tokenizing_scanning _ _ T) R G N) as (s1 & E1 & _). rewrite E1 in E. now injection E as _ <-.
  Qed.

  (* a position is one *)
  Lemma position_unique text l k l' k' : position text l k -> position text l' k' -> l = l' /\ k = k'.
  Proof.
    intros (a & b & -> & Hb & Ha & -> & ->) (a' & b' & E & Hb' & Ha' & -> & ->).
    assert (G : forall a b a' b', a ++ b = a' ++ b' -> ~ In 10 b -> ~ In 10 b' -> (a = [] \/ exists x, a = x ++ [10]) -> (a' = [] \/ exists x, a' = x ++ [10]) -> (length b <= length b')%nat -> b = b').
    { clear. intros a b a' b' E Hb Hb' Ha Ha' Hl. destruct Ha as [->|[x ->]].
      - cbn in E. subst b. rewrite app_length in Hl. destruct a'; [reflexivity|cbn in Hl; lia].
      - rewrite <- app_assoc in E. cbn [app] in E. destruct (app_eq_app _ _ _ _ E) as (l & [[E1 E2]|[E1 E2]]).
        + exfalso. apply Hb'. rewrite E2. apply in_or_app. right. now left.
        + destruct l as [|y l]; [cbn in E2; exfalso; apply Hb'; rewrite <- E2; now left|]. cbn in E2. injection E2 as <- ->. rewrite app_length in Hl.
          destruct l; [reflexivity|cbn in Hl; lia]. }
    assert (b = b') as <-. { destruct (Nat.le_ge_cases (length b) (length b')); [eapply G; eauto|symmetry; eapply G; eauto]. }
    apply app_inv_tail in E. now subst a'.
  Qed.
End Scanner.
