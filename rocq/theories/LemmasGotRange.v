(** Proofs for property C73: the tokens and the integers of the contexts of a
    parser. *)

From Verif Require Import ModelParser SpecScanner SpecParser SpecPosition SpecPlace LemmasBase LemmasValue LemmasScanner LemmasPosition LemmasPlace LemmasPlaceRange ModelGot SpecGot LemmasGot.

(** The runes of the input and the last one read. *)
Definition plain (s : scanner) : Prop := Forall (fun r => 0 <= r) (s_in s) /\ -1 <= s_read s.

(** The token and the integer of a context. *)
Definition bound (t : Z) : Prop := -18 <= t <= 127.
Definition ranged (c : sctx) : Prop := bound (c_token c) /\ is_i64 (c_integer c).

Ltac num := unfold bound in *; lia.

Lemma plain_read s r s' : plain s -> readRune s = (r, s') -> plain s' /\ -1 <= r.
Proof.
  intros [P Q]. unfold readRune. destruct (s_unread s).
  - intros [= <- <-]. now repeat split.
  - destruct (s_in s) as [|x l]; intros [= <- <-]; [repeat split; cbn; [constructor|lia|lia]|].
    inversion P as [|? ? Hx Hl]; subst. repeat split; cbn [s_in s_read]; [exact Hl|lia|lia].
Qed.

Lemma plain_unread s : plain s -> plain (unreadRune s).
Proof. exact (fun H => H). Qed.

Section Range.
  Context {X : FloatLib} {L : CaseLib} {U : RuneLib} {B : BufLib} {P : PrintLib}.

  Lemma plain_rune s r : plain s -> plain (writeRune s r).
  Proof. exact (fun H => H). Qed.
  Lemma plain_byte s x : plain s -> plain (writeByte s x).
  Proof. exact (fun H => H). Qed.

  (** What scanning a token results in. *)
  Definition fine (c : sctx) (o : scanned) : Prop :=
    match o with Some (s', c', t) => plain s' /\ (is_i64 (c_integer c) -> is_i64 (c_integer c')) /\ bound t | None => True end.

  Ltac rd := match goal with |- context [readRune ?s] => let H := fresh "H" in let r := fresh "r" in let s' := fresh "s" in let E := fresh "E" in
      destruct (readRune s) as [r s'] eqn:E; apply plain_read in E; [destruct E as [? ?]|try assumption] end.
  Ltac ends := cbn [fine]; split; [assumption|split; [exact (fun h => h)|num]].

  Lemma identifier_plain fuel : forall s r s', plain s -> identifierLoop fuel s r = Some s' -> plain s'.
  Proof.
    induction fuel as [|fuel IH]; intros s r s' H; cbn [identifierLoop]; [discriminate|]. rd.
    destruct (_ =? _); [now intros [= <-]|]. destruct (_ && _); [now intros [= <-]|]. now apply IH.
  Qed.

  Lemma identifier_fine fuel s c r : plain s -> fine c (scanIdentifier fuel s c r).
  Proof.
    intros H. unfold scanIdentifier. destruct (identifierLoop fuel s r) as [s'|] eqn:E; [|exact Logic.I]. apply identifier_plain in E; [|exact H].
    destruct (ID _ _ _) as [t id]. destruct (IsReserved id); ends.
  Qed.

  Lemma number_plain fuel : forall s d r s' d', plain s -> numberLoop fuel s d r = Some (s', d') -> plain s'.
  Proof.
    induction fuel as [|fuel IH]; intros s d r s' d' H; cbn [numberLoop]; [discriminate|]. rd.
    destruct (_ =? _); [now intros [= <- _]|]. destruct (_ && _); [now apply IH|]. destruct (negb _); [now intros [= <- _]|]. now apply IH.
  Qed.

  Lemma number_fine fuel s c r sign : plain s -> fine c (scanNumber fuel s c r sign).
  Proof.
    intros H. unfold scanNumber. destruct (numberLoop fuel s false r) as [[s' d]|] eqn:E; [|exact Logic.I]. apply number_plain in E; [|exact H].
    destruct d.
    - destruct (x_parse_float _); ends.
    - destruct (parse_int _); [|ends]. cbn [fine]. split; [exact E|split; [intros _; apply i64_range|num]].
  Qed.

  Lemma parameter_plain fuel : forall s r s', plain s -> parameterLoop fuel s r = Some s' -> plain s'.
  Proof.
    induction fuel as [|fuel IH]; intros s r s' H; cbn [parameterLoop]; [discriminate|]. rd.
    destruct (_ =? _); [now intros [= <-]|]. destruct (negb _); [now intros [= <-]|]. now apply IH.
  Qed.

  Lemma parameter_fine fuel s c r : plain s -> fine c (scanParameter fuel s c r).
  Proof.
    intros H. unfold scanParameter. destruct (parameterLoop fuel s r) as [s'|] eqn:E; [|exact Logic.I]. apply parameter_plain in E; [|exact H].
    destruct (parse_int _) as [i|] eqn:K; [|ends]. apply parse_int_spec in K. destruct K as [_ K].
    cbv zeta. destruct (i =? 0); (cbn [fine]; split; [exact E|split; [intros _; exact K|num]]).
  Qed.

  Lemma quoted_plain fuel : forall s d s' b, plain s -> quotedIdentifierLoop fuel s d = Some (s', b) -> plain s'.
  Proof.
    induction fuel as [|fuel IH]; intros s d s' b H; cbn [quotedIdentifierLoop]; [discriminate|]. rd.
    destruct (_ =? _); [now intros [= <- _]|]. destruct (_ =? _); [now intros [= <- _]|]. now apply IH.
  Qed.

  Lemma quoted_fine fuel s c d : plain s -> fine c (scanQuotedIdentifier fuel s c d).
  Proof.
    intros H. unfold scanQuotedIdentifier. destruct (quotedIdentifierLoop fuel s d) as [[s' b]|] eqn:E; [|exact Logic.I]. apply quoted_plain in E; [|exact H].
    destruct b; [destruct (ID _ _ _) as [t id]|]; ends.
  Qed.

  (** The pieces of literals keep the integer. *)
  Definition stays {A} (c : sctx) (o : scanner * sctx * A) : Prop := plain (fst (fst o)) /\ c_integer (snd (fst o)) = c_integer c.

  Lemma hexDigit_stays s c : plain s -> stays c (scanHexDigit s c).
  Proof.
    intros H. unfold scanHexDigit. rd. destruct (_ && _); [now split|]. destruct (_ && _); [now split|]. destruct (_ && _); [now split|].
    destruct (_ =? _); now split.
  Qed.

  Lemma octalDigit_stays s c : plain s -> stays c (scanOctalDigit s c).
  Proof. intros H. unfold scanOctalDigit. rd. destruct (_ && _); [now split|]. destruct (_ =? _); now split. Qed.

  Ltac hd := match goal with |- context [scanHexDigit ?s ?c] => let K := fresh "K" in
      assert (K : stays c (scanHexDigit s c)) by (apply hexDigit_stays; assumption); destruct (scanHexDigit s c) as [[? ?] [?|]]; destruct K as [? ?]; cbn [fst snd] in * end.
  Ltac od := match goal with |- context [scanOctalDigit ?s ?c] => let K := fresh "K" in
      assert (K : stays c (scanOctalDigit s c)) by (apply octalDigit_stays; assumption); destruct (scanOctalDigit s c) as [[? ?] [?|]]; destruct K as [? ?]; cbn [fst snd] in * end.
  Ltac st := split; cbn [fst snd]; [assumption|congruence].

  Lemma hex_stays s c : plain s -> stays c (scanHex s c).
  Proof. intros H. unfold scanHex. hd; [|st]. hd; st. Qed.

  Lemma unicode_stays n : forall s c u, plain s -> stays c (unicodeLoop n s c u).
  Proof.
    induction n as [|n IH]; intros s c u H; cbn [unicodeLoop]; [now split|]. hd; [|st].
    match goal with |- stays _ (unicodeLoop n ?s ?c ?u) => destruct (IH s c u ltac:(assumption)) as [I1 I2] end. split; [exact I1|congruence].
  Qed.

  Lemma octal_stays s c r : plain s -> stays c (scanOctal s c r).
  Proof. intros H. unfold scanOctal. cbv zeta. od; [|st]. od; st. Qed.

  Lemma escape_stays s c : plain s -> stays c (scanEscape s c).
  Proof.
    intros H. unfold scanEscape. rd. do 7 (destruct (_ =? _); [now split|]). destruct (_ =? _); [now apply hex_stays|].
    assert (V : forall n, stays c (scanUnicode s0 c n)).
    { intros n. unfold scanUnicode. pose proof (unicode_stays n s0 c 0 ltac:(assumption)) as V. destruct (unicodeLoop n s0 c 0) as [[a b] [u|]]; destruct V; now split. }
    do 2 (destruct (_ =? _); [apply V|]). destruct (_ && _); [now apply octal_stays|now split].
  Qed.

  Lemma rune_stays s c esc r : plain s -> stays c (quotedRune s c esc r).
  Proof.
    intros H. unfold quotedRune. destruct (_ && _); [|now split]. pose proof (escape_stays s c H) as K. destruct (scanEscape s c) as [[a b] t]. destruct K as [K1 K2].
    cbn [fst snd] in *. destruct (_ =? _); [now split|]. destruct (_ =? _); now split.
  Qed.

  Lemma space_plain fuel : forall s r nl s' r' nl', plain s -> quoteSpace fuel s r nl = Some (s', r', nl') -> plain s'.
  Proof.
    induction fuel as [|fuel IH]; intros s r nl s' r' nl' H; cbn [quoteSpace]; [discriminate|]. destruct (x_is_space r); [|now intros [= <- _ _]].
    cbv zeta. rd. now apply IH.
  Qed.

  Lemma constant_fine fuel : forall s c esc, plain s -> fine c (scanQuotedConstant fuel s c esc).
  Proof.
    induction fuel as [|fuel IH]; intros s c esc H; [exact Logic.I|]. cbn [scanQuotedConstant]. rd.
    destruct (_ =? _); [ends|]. destruct (_ =? _); [ends|].
    assert (G : forall s1 r1, plain s1 -> fine c match quotedRune s1 c esc r1 with
        | (s, c, None) => Some (s, c, tError) | (s, c, Some r) => scanQuotedConstant fuel (writeRune s r) c esc end).
    { intros s1 r1 P1. pose proof (rune_stays s1 c esc r1 P1) as K. destruct (quotedRune s1 c esc r1) as [[a b] [t|]]; destruct K as [K1 K2]; cbn [fst snd] in *.
      - pose proof (IH (writeRune a t) b esc K1) as F. destruct (scanQuotedConstant fuel (writeRune a t) b esc) as [[[x y] z]|]; [|exact Logic.I].
        cbn [fine] in *. rewrite K2 in F. exact F.
      - cbn [fine]. rewrite K2. split; [exact K1|split; [exact (fun h => h)|num]]. }
    destruct (_ =? 39); [|now apply G]. rd. destruct (x_is_space _).
    - destruct (quoteSpace _ _ _ _) as [[[a b] d]|] eqn:E; [|exact Logic.I]. apply space_plain in E; [|assumption].
      destruct (_ && _); [now apply IH|]. destruct (_ =? _); ends.
    - destruct (negb _); [ends|now apply G].
  Qed.

  Lemma string_fine fuel s c esc : plain s -> fine c (scanString fuel s c esc).
  Proof.
    intros H. unfold scanString. pose proof (constant_fine fuel s c esc H) as K. destruct (scanQuotedConstant fuel s c esc) as [[[a b] t]|]; [|exact Logic.I].
    destruct K as (K1 & K2 & K3). destruct (_ =? _); (cbn [fine]; split; [exact K1|split; [exact K2|num]]).
  Qed.

  Lemma bytes_fine fuel s c esc : plain s -> fine c (scanBytes fuel s c esc).
  Proof.
    intros H. unfold scanBytes. pose proof (constant_fine fuel s c esc H) as K. destruct (scanQuotedConstant fuel s c esc) as [[[a b] t]|]; [|exact Logic.I].
    destruct K as (K1 & K2 & K3). destruct (_ =? _); (cbn [fine]; split; [exact K1|split; [exact K2|num]]).
  Qed.

  Lemma fine_integer c d o : c_integer d = c_integer c -> fine d o -> fine c o.
  Proof. intros E. unfold fine. destruct o as [[[a b] t]|]; [|exact (fun h => h)]. now rewrite E. Qed.

  Lemma hexBytes_fine fuel : forall s c, plain s -> fine c (scanHexBytes fuel s c).
  Proof.
    induction fuel as [|fuel IH]; intros s c H; [exact Logic.I|]. cbn [scanHexBytes]. rd.
    destruct (_ =? _); [ends|]. destruct (_ =? _); [ends|]. destruct (_ =? _); [ends|].
    assert (plain (unreadRune s0)) by assumption.
    hd; [|eapply fine_integer; [eassumption|ends]].
    hd; (eapply fine_integer; [etransitivity; eassumption|]); [now apply IH|ends].
  Qed.

  Lemma operators_bound r r2 t : Operators r r2 = Some t -> bound t.
  Proof.
    unfold Operators. destruct (find _ operators) as [o|] eqn:E; [|discriminate]. intros [= <-]. apply find_some in E. destruct E as [E _].
    unfold operators in E. cbn [In] in E. repeat (destruct E as [<-|E]; [cbn [snd]; num|]). contradiction.
  Qed.

  Lemma oprune_bound r : IsOpRune r = true -> bound r.
  Proof.
    unfold IsOpRune. intros H. apply existsb_exists in H. destruct H as (x & I & E). apply Z.eqb_eq in E. subst x.
    unfold opRunes in I. cbn [In] in I. repeat (destruct I as [<-|I]; [num|]). contradiction.
  Qed.

  Lemma token_fine fuel s c r : plain s -> fine c (scanToken fuel s c r).
  Proof.
    intros H. unfold scanToken. cbv zeta. apply (fine_integer _ (set_position c (s_line s) (s_column s))); [reflexivity|].
    set (d := set_position c (s_line s) (s_column s)). clearbody d.
    destruct (_ || _); [rd; destruct (_ =? 39); [now apply string_fine|now apply identifier_fine]|].
    destruct (_ =? 98); [rd; destruct (_ =? 39); [now apply bytes_fine|now apply identifier_fine]|].
    destruct (_ || _); [rd; destruct (_ =? 39); [now apply hexBytes_fine|now apply identifier_fine]|].
    destruct (_ || _); [now apply identifier_fine|]. destruct (x_is_digit r); [now apply number_fine|].
    destruct (r =? 43); [rd; destruct (x_is_digit _); [now apply number_fine|ends]|].
    destruct (r =? 45); [rd; destruct (x_is_digit _); [now apply number_fine|ends]|].
    destruct (_ || _); [now apply quoted_fine|]. destruct (r =? 91); [now apply quoted_fine|]. destruct (r =? 39); [now apply string_fine|].
    destruct (IsOpRune r) eqn:O.
    { apply oprune_bound in O. assert (plain (writeRune s r)) by exact H. rd.
      destruct (_ || _); [ends|]. destruct (IsOpRune _); [|ends].
      destruct (Operators _ _) as [t|] eqn:Q; [|ends]. apply operators_bound in Q. ends. }
    destruct (_ || _) eqn:Q.
    { repeat rewrite Bool.orb_true_iff in Q. rewrite !Z.eqb_eq in Q. ends. }
    destruct (r =? 36); [|ends]. rd. destruct (negb _); [ends|now apply parameter_fine].
  Qed.

  Lemma skip_plain fuel : forall s r s', plain s -> skipWhitespace fuel s = Some (r, s') -> plain s' /\ -1 <= r.
  Proof.
    induction fuel as [|fuel IH]; intros s r s' H; cbn [skipWhitespace]; [discriminate|]. rd.
    destruct (_ || _); [intros [= <- <-]; now split|now apply IH].
  Qed.

  Lemma line_plain fuel : forall s o s', plain s -> lineComment fuel s = Some (o, s') -> plain s' /\ match o with Some r => -1 <= r < 0 | None => True end.
  Proof.
    induction fuel as [|fuel IH]; intros s o s' H; cbn [lineComment]; [discriminate|]. rd.
    destruct (_ <? 0) eqn:N; [apply Z.ltb_lt in N; intros [= <- <-]; split; [assumption|lia]|].
    destruct (_ =? _); [intros [= <- <-]; now split|now apply IH].
  Qed.

  Lemma block_plain fuel : forall s q o s', plain s -> blockComment fuel s q = Some (o, s') -> plain s' /\ match o with Some r => -1 <= r < 0 | None => True end.
  Proof.
    induction fuel as [|fuel IH]; intros s q o s' H; cbn [blockComment]; [discriminate|]. rd.
    destruct (_ <? 0) eqn:N; [apply Z.ltb_lt in N; intros [= <- <-]; split; [assumption|lia]|].
    destruct (_ && _); [intros [= <- <-]; now split|now apply IH].
  Qed.

  Lemma comments_plain fuel s r o : plain s -> comments fuel s r = Some o ->
    match o with Again s' | Proceed s' => plain s' | Return t s' => plain s' /\ -1 <= t < 0 end.
  Proof.
    intros H. unfold comments. cbv zeta.
    destruct (r =? 45).
    { rd. destruct (_ =? 45).
      - destruct (lineComment fuel s0) as [[[t|] s1]|] eqn:K; [| |discriminate]; apply line_plain in K; try assumption; destruct K as [K1 K2]; intros [= <-]; [now split|exact K1].
      - destruct (_ <? 0) eqn:N; intros [= <-]; [apply Z.ltb_lt in N; split; [assumption|lia]|assumption]. }
    destruct (r =? 47).
    { rd. destruct (_ =? 42).
      - destruct (blockComment fuel s0 0) as [[[t|] s1]|] eqn:K; [| |discriminate]; apply block_plain in K; try assumption; destruct K as [K1 K2]; intros [= <-]; [now split|exact K1].
      - destruct (_ <? 0) eqn:N; intros [= <-]; [apply Z.ltb_lt in N; split; [assumption|lia]|assumption]. }
    intros [= <-]. exact H.
  Qed.

  Lemma scan_fine fuel : forall s c, plain s -> fine c (scan fuel s c).
  Proof.
    induction fuel as [|fuel IH]; intros s c H; [exact Logic.I|]. cbn [scan].
    destruct (skipWhitespace (S fuel) s) as [[r s1]|] eqn:E; [|exact Logic.I]. apply skip_plain in E; [|exact H]. destruct E as [E1 E2].
    destruct (r <? 0) eqn:N; [apply Z.ltb_lt in N; ends|]. destruct (r =? 59); [ends|].
    destruct (comments (S fuel) s1 r) as [o|] eqn:D; [|exact Logic.I]. apply comments_plain in D; [|exact E1].
    destruct o as [s2|r2 s2|s2]; [now apply IH| |now apply token_fine]. destruct D as [D1 D2]. ends.
  Qed.

  Lemma Scan_ranged s c s' c' : plain s -> ranged c -> Scan s c = Some (s', c') -> plain s' /\ ranged c'.
  Proof.
    intros H [_ R]. unfold Scan, ScanFuel. set (s0 := set_buffer s (b_reset (s_buffer s))). assert (H0 : plain s0) by exact H.
    pose proof (scan_fine (scan_fuel s) s0 c H0) as F. destruct (scan (scan_fuel s) s0 c) as [[[s1 c1] t]|]; [|discriminate]. intros [= <- <-].
    destruct F as (F1 & F2 & F3). split; [exact F1|]. split; [exact F3|exact (F2 R)].
  Qed.

  Lemma dropLine_plain l : Forall (fun r => 0 <= r) l -> Forall (fun r => 0 <= r) (fst (dropLine l)).
  Proof. induction 1 as [|x l Hx Hl IH]; cbn [dropLine fst]; [constructor|]. destruct (x =? 10); [exact Hl|exact IH]. Qed.

  Lemma RuneReader_plain s : plain s -> plain (RuneReader s).
  Proof.
    intros [A C]. unfold RuneReader. pose proof (dropLine_plain _ A) as D. destruct (dropLine (s_in s)) as [l n]. now split.
  Qed.

  Lemma data_plain s : plain s -> plain (snd (runeReaderReadRune s)).
  Proof.
    intros [A C]. unfold runeReaderReadRune. destruct (s_in s) as [|x l] eqn:E; cbn [snd]; [split; [now rewrite E|exact C]|].
    inversion A; subst. now split.
  Qed.

  (** ** The parser *)
  Definition good (p : parser) : Prop := plain (p_scanner p) /\ Forall ranged (p_lookBack p).

  Lemma ranged_zero : ranged c_zero.
  Proof. split; [cbn; num|]. cbn. unfold is_i64. lia. Qed.

  Lemma ranged_nth l i : Forall ranged l -> ranged (nth i l c_zero).
  Proof. intros H. revert i. induction H as [|c l Hc Hl IH]; intros [|i]; cbn [nth]; try assumption; try apply IH; apply ranged_zero. Qed.

  Lemma ranged_set l i c : ranged c -> Forall ranged l -> Forall ranged (ModelParser.set_nth i c l).
  Proof. intros C H. revert i. induction H as [|x l Hx Hl IH]; intros [|i]; cbn [ModelParser.set_nth]; constructor; auto. Qed.

  Lemma good_next p p' e : good p -> scanRune p = Some (p', e) -> good p'.
  Proof.
    intros [F T]. unfold scanRune. cbv zeta. destruct (p_unscanned p).
    - destruct (Scan _ _) as [[s c]|] eqn:E; [|discriminate]. intros [= <- _]. destruct (Scan_ranged _ _ _ _ F (ranged_nth _ _ T) E) as [F' T'].
      split; [exact F'|]. cbn [p_lookBack]. now apply ranged_set.
    - intros [= <- _]. now split.
  Qed.

  Lemma good_back p p' : good p -> unscan p = Some p' -> good p'.
  Proof. intros [F T]. unfold unscan. destruct (_ <? _)%nat; [discriminate|]. intros [= <-]. now split. Qed.

  Definition good_out {A} (r : outcome_ parser A) : Prop := match r with Done _ p | Failed p | Crashed p => good p | Stuck => True end.

  Lemma run_good {A} (g : act A) : forall p, good p -> good_out (run g p).
  Proof.
    induction g as [a| | | |k IH|k IH|k IH|s k IH|i k IH|l k IH|k IH]; intros p H; cbn [run]; try exact H; try exact Logic.I; auto.
    - destruct (scanRune p) as [[p' [|]]|] eqn:E; [exact (good_next _ _ _ H E)|apply IH; exact (good_next _ _ _ H E)|exact Logic.I].
    - destruct (unscan p) as [p'|] eqn:E; [apply IH; exact (good_back _ _ H E)|exact H].
    - destruct (ID _ s false) as [ids id]. apply IH. exact H.
    - apply IH. destruct H as [F T]. split; [|exact T]. now apply RuneReader_plain.
  Qed.

  Lemma skip_good k : forall p, good p ->
    good (snd (skipStmt k p)) /\ match fst (skipStmt k p) with Some (PStmt _ p') | Some (PErr p') | Some (PEOF p') => good p' | _ => True end.
  Proof.
    induction k as [|k IH]; intros p H; cbn [skipStmt]; [now split|]. destruct (scanRune p) as [[p' e]|] eqn:E; [|now split]. pose proof (good_next _ _ _ H E) as H'.
    destruct e; [now split|]. destruct (p_tok p'); try (now split); now apply IH.
  Qed.

  Lemma parse_good p : good p -> match Parse p with PStmt _ p' | PErr p' | PEOF p' => good p' | _ => True end.
  Proof.
    intros H. unfold Parse.
    assert (K : match ParseTree p with PStmt _ p' | PErr p' | PEOF p' => good p' | _ => True end).
    { unfold ParseTree. destruct (scanRune p) as [[p1 [|]]|] eqn:E; [exact (good_next _ _ _ H E)| |exact Logic.I]. pose proof (good_next _ _ _ H E) as H1.
      assert (W : match match unscan p1 with
            | None => PCrash
            | Some p => let '(o, p) := if p_failed p then skipStmt (parse_fuel p) p else (None, p) in
                match o with Some r => r | None => let p := set_failed p false in
                    match run (parseWhole (parse_fuel p)) p with Done s p => PStmt s p | Failed p => PErr (set_failed p (match p_tok p with KEnd => false | _ => true end)) | Crashed _ => PCrash | Stuck => PStuck end end
            end with PStmt _ p' | PErr p' | PEOF p' => good p' | _ => True end).
      { destruct (unscan p1) as [p2|] eqn:E2; [|exact Logic.I]. pose proof (good_back _ _ H1 E2) as H2.
        assert (G : forall p3, good p3 -> match (let p := set_failed p3 false in
            match run (parseWhole (parse_fuel p)) p with Done s p => PStmt s p | Failed p => PErr (set_failed p (match p_tok p with KEnd => false | _ => true end)) | Crashed _ => PCrash | Stuck => PStuck end)
            with PStmt _ p' | PErr p' | PEOF p' => good p' | _ => True end).
        { intros p3 H3. cbv zeta. pose proof (run_good (parseWhole (parse_fuel (set_failed p3 false))) (set_failed p3 false) H3) as R. destruct (run _ _); exact R || exact Logic.I. }
        destruct (p_failed p2); [|now apply G]. pose proof (skip_good (parse_fuel p2) p2 H2) as [S1 S2]. destruct (skipStmt (parse_fuel p2) p2) as [[r|] p3]; cbn [fst snd] in *.
        - destruct r; exact S2 || exact Logic.I.
        - now apply G. }
      destruct (p_tok p1); try exact W. exact H1. }
    destruct (ParseTree p); exact K.
  Qed.

  Lemma expr_good p : good p -> good_out (ParseExpr p).
  Proof. intros H. unfold ParseExpr. pose proof (run_good (parseExpr (parse_fuel p)) p H) as R. destruct (run _ _); exact R. Qed.

  Lemma parsing_good input p : parsing input p -> good p.
  Proof.
    intros H. induction H as [ids input H|input p s p' H IH E|input p p' H IH E|input p p' H IH E|input p e p' H IH E|input p p' H IH E|input p t H IH|input p H IH].
    - split; [|repeat constructor; cbn; unfold bound, is_i64; lia]. split; [|cbn; lia]. cbn. apply (Forall_impl (P := fun r => 0 <= r <= 1114111)); [intros r K; lia|exact H].
    - pose proof (parse_good p IH) as K. rewrite E in K. exact K.
    - pose proof (parse_good p IH) as K. rewrite E in K. exact K.
    - pose proof (parse_good p IH) as K. rewrite E in K. exact K.
    - pose proof (expr_good p IH) as K. rewrite E in K. exact K.
    - pose proof (expr_good p IH) as K. rewrite E in K. exact K.
    - exact IH.
    - destruct IH as [F T]. split; [|exact T]. now apply data_plain.
  Qed.

  (** The contexts of a parser, also amid a statement. *)
  Lemma inside_good {A} input p (g : act A) q : parsing input p -> (exists a, run g p = Done a q) \/ run g p = Failed q ->
    good q /\ small (Z.of_nat (length input)) q.
  Proof.
    intros H K. pose proof (run_good g p (parsing_good input p H)) as G. pose proof (run_small _ g p (parsing_small input p H)) as M.
    destruct K as [[a K]|K]; rewrite K in G, M; now split.
  Qed.

  Lemma contexts_in {A} input p (g : act A) q : parsing input p -> (exists a, run g p = Done a q) \/ run g p = Failed q ->
    -18 <= c_token (p_sctx q) <= 127 /\ is_i64 (c_integer (p_sctx q)).
  Proof. intros H K. destruct (inside_good input p g q H K) as [[_ T] _]. exact (ranged_nth _ _ T). Qed.

  Context {W : GotLib}.

  (** What is expected and found. *)
  Lemma inside_error {A} input fn p (g : act A) a p1 e q : parsing input p -> Z.of_nat (length input) < 2 ^ 63 - 1 ->
    run g p = Done a p1 -> run (expectation e) p1 = Failed q -> c_token (p_sctx q) <> -3 ->
    match e with XTokens rs => Forall is_i64 rs | XInteger lo hi => is_i64 lo /\ is_i64 hi | _ => True end ->
    exists place t m, expectError fn e p1 = Some (place ++ m) /\ error_says fn (c_line (p_sctx q)) (c_column (p_sctx q)) place /\
      found_says (s_ids (p_scanner q)) (p_sctx q) t /\ expected_says (s_ids (p_scanner q)) t e m.
  Proof.
    intros H N K R T He. destruct (inside_good input p g p1 H (or_introl (ex_intro _ a K))) as [G M].
    apply (run_good (expectation e)) in G. rewrite R in G. apply (run_small _ (expectation e)) in M. rewrite R in M.
    destruct G as [_ G]. destruct (ranged_nth _ (p_current q) G) as [G1 G2]. destruct M as [F M].
    destruct (tame_nth _ _ (p_current q) (fits_pos _ _ F) M) as [M1 M2].
    apply expect_error; try assumption; unfold is_i64; unfold p_sctx, bound in *; lia.
  Qed.

  (** The text tells the token. *)
  Lemma inside_tells {A A'} input p (g : act A) q input' p' (g' : act A') q' T t : GotLib_ok ->
    parsing input p -> (exists a, run g p = Done a q) \/ run g p = Failed q -> ~ In (c_token (p_sctx q)) [-3; -7; -9; -10] ->
    parsing input' p' -> (exists a, run g' p' = Done a q') \/ run g' p' = Failed q' -> ~ In (c_token (p_sctx q')) [-3; -7; -9; -10] ->
    got T (p_sctx q) = Some t -> got T (p_sctx q') = Some t -> same_token T (p_sctx q) (p_sctx q').
  Proof.
    intros K H R N H' R' N' G G'. destruct (contexts_in input p g q H R) as [C1 C2]. destruct (contexts_in input' p' g' q' H' R') as [D1 D2].
    apply (found_tells T (p_sctx q) (p_sctx q') t); try assumption; try (unfold is_i64; lia); (split; [assumption|]); intros Z0; unfold SpecInfo.code_point; lia.
  Qed.
End Range.
