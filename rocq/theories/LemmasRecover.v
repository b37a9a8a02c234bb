(** What was read before a statement does not matter for it. *)

From Verif Require Import ModelParser SpecParser LemmasBase LemmasScanner LemmasScanProps LemmasParserWp LemmasParserRun LemmasParserEnds.

(** ** The scanner does not look at the context it is to fill in *)
Section Uniform.
  Context {X : FloatLib} {L : CaseLib} {U : RuneLib} {B : BufLib}.

  Definition uniform (F : sctx -> scanned) : Prop :=
    (forall c, F c = None) \/
    exists s tk f, (forall c, F c = Some (s, f c, tk)) /\
      ((forall c d, tok_of (set_token (f c) tk) = tok_of (set_token (f d) tk)) \/
       (tk = -3 /\ forall c, c_error (f c) = c_error c)).

  Lemma tok_plain c d tk : (tk = -1 \/ 0 <= tk \/ tk = -2 \/ tk <= -11) -> tok_of (set_token c tk) = tok_of (set_token d tk).
  Proof.
    intros H. unfold tok_of. cbn [c_token set_token]. repeat match goal with |- context [tk =? ?k] => destruct (Z.eqb_spec tk k); [try reflexivity; lia|] end. reflexivity.
  Qed.

  Ltac known := right; do 3 eexists; split; [intros c; reflexivity|]; cbv beta.
  Ltac fixed := known; first [left; intros; reflexivity | right; split; [reflexivity|intros; reflexivity]].

  Lemma u_pre (F : sctx -> scanned) (g : sctx -> sctx) : (forall c, c_error (g c) = c_error c) -> uniform F -> uniform (fun c => F (g c)).
  Proof.
    intros Hg [N|(s & tk & f & E & H)]; [left; intros; apply N|]. right. exists s, tk, (fun c => f (g c)). split; [intros; apply E|].
    destruct H as [H|[-> H]]; [left; intros; apply H|right]. split; [reflexivity|]. intros. now rewrite H.
  Qed.

  Lemma u_ident fuel s r : uniform (fun c => scanIdentifier fuel s c r).
  Proof.
    unfold scanIdentifier. destruct (identifierLoop fuel s r) as [s'|]; [|left; reflexivity]. destruct (ID _ _ _) as [t id].
    right. do 3 eexists. split; [intros c; reflexivity|]. left. intros. now destruct (IsReserved id).
  Qed.
  Lemma u_number fuel s r k : uniform (fun c => scanNumber fuel s c r k).
  Proof.
    unfold scanNumber. destruct (numberLoop fuel s false r) as [[s' []]|]; [| |left; reflexivity].
    - destruct (x_parse_float _); fixed.
    - destruct (parse_int _); fixed.
  Qed.
  Lemma u_parameter fuel s r : uniform (fun c => scanParameter fuel s c r).
  Proof.
    unfold scanParameter. destruct (parameterLoop fuel s r) as [s'|]; [|left; reflexivity]. destruct (parse_int _) as [i|]; [destruct (i =? 0)|]; fixed.
  Qed.
  Lemma u_quoted fuel s d : uniform (fun c => scanQuotedIdentifier fuel s c d).
  Proof.
    unfold scanQuotedIdentifier. destruct (quotedIdentifierLoop fuel s d) as [[s' []]|]; [destruct (ID _ _ _)| |left; reflexivity]; fixed.
  Qed.

  (** Parts of tokens: the context stays as it is, or there is an error. *)
  Definition part {T} (F : sctx -> scanner * sctx * T) (bad : T) : Prop :=
    exists s x, (forall c, F c = (s, c, x)) \/ (x = bad /\ ((forall c, F c = (s, c, bad)) \/ exists e, forall c, F c = (s, set_error c e, bad))).

  Lemma p_hexdigit s : part (fun c => scanHexDigit s c) None.
  Proof.
    unfold part, scanHexDigit. destruct (readRune s) as [r s'].
    do 3 match goal with |- context [if ?b then _ else _] => destruct b; [do 2 eexists; left; reflexivity|] end.
    exists s', None. right. split; [reflexivity|]. destruct (r =? tError); [left|right; eexists]; reflexivity.
  Qed.
  Lemma p_octdigit s : part (fun c => scanOctalDigit s c) None.
  Proof.
    unfold part, scanOctalDigit. destruct (readRune s) as [r s'].
    match goal with |- context [if ?b then _ else _] => destruct b; [do 2 eexists; left; reflexivity|] end.
    exists s', None. right. split; [reflexivity|]. destruct (r =? tError); [left|right; eexists]; reflexivity.
  Qed.

  Lemma part_bind {T T'} (F : sctx -> scanner * sctx * option T) (G : scanner -> sctx -> T -> scanner * sctx * T') (bad : T') :
    part F None -> (forall s t, part (fun c => G s c t) bad) ->
    part (fun c => match F c with (s, c, None) => (s, c, bad) | (s, c, Some t) => G s c t end) bad.
  Proof.
    intros (s & x & [H|(-> & [H|[e H]])]) HG.
    - destruct x as [t|].
      + destruct (HG s t) as (s' & x & [H'|(-> & [H'|[e H']])]); exists s'; [exists x; left|exists bad; right; split; [reflexivity|left]|exists bad; right; split; [reflexivity|right; exists e]]; intros c; rewrite H; apply H'.
      + exists s, bad. left. intros c. now rewrite H.
    - exists s, bad. left. intros c. now rewrite H.
    - exists s, bad. right. split; [reflexivity|]. right. exists e. intros c. now rewrite H.
  Qed.
  Lemma part_ret {T} s (t bad : T) : part (fun c => (s, c, t)) bad.
  Proof. exists s, t. left. reflexivity. Qed.

  Lemma p_hex s : part (fun c => scanHex s c) tError.
  Proof. unfold scanHex. apply part_bind; [apply p_hexdigit|]. intros. apply part_bind; [apply p_hexdigit|]. intros. apply part_ret. Qed.
  Lemma p_unicodeLoop n : forall s u, part (fun c => unicodeLoop n s c u) None.
  Proof. induction n as [|n IH]; intros s u; cbn [unicodeLoop]; [apply part_ret|]. apply part_bind; [apply p_hexdigit|]. intros. apply IH. Qed.
  Lemma p_unicode s n : part (fun c => scanUnicode s c n) tError.
  Proof. unfold scanUnicode. apply part_bind; [apply p_unicodeLoop|]. intros. apply part_ret. Qed.
  Lemma p_octal s r : part (fun c => scanOctal s c r) tError.
  Proof. unfold scanOctal. apply part_bind; [apply p_octdigit|]. intros. apply part_bind; [apply p_octdigit|]. intros. apply part_ret. Qed.
  Lemma p_escape s : part (fun c => scanEscape s c) tError.
  Proof.
    unfold scanEscape. destruct (readRune s) as [r s'].
    repeat match goal with |- part (fun c => if ?b then _ else _) _ => destruct b; [first [apply part_ret | apply p_hex | apply p_unicode | apply p_octal]|] end. apply part_ret.
  Qed.
  Lemma p_quotedRune s esc r : part (fun c => quotedRune s c esc r) None.
  Proof.
    unfold quotedRune. destruct ((r =? 92) && esc); [|apply part_ret]. destruct (p_escape s) as (s' & x & [H|(-> & [H|[e H]])]).
    - destruct (x =? tEOF) eqn:E1.
      + exists s', None. right. split; [reflexivity|]. right. exists SIncompleteEscape. intros c. now rewrite H, E1.
      + destruct (x =? tError) eqn:E2; [exists s', None|exists s', (Some x)]; left; intros c; now rewrite H, E1, E2.
    - exists s', None. left. intros c. now rewrite H.
    - exists s', None. right. split; [reflexivity|]. right. exists e. intros c. now rewrite H.
  Qed.

  (** Quoted constants: the token is a string and the context is as before, or
      there is an error. *)
  Definition quoted (F : sctx -> scanned) : Prop :=
    (forall c, F c = None) \/
    exists s, (forall c, F c = Some (s, c, -6)) \/ (forall c, F c = Some (s, c, -3)) \/ (exists e, forall c, F c = Some (s, set_error c e, -3)).

  Lemma q_put s esc r (G : scanner -> sctx -> scanned) : (forall s, quoted (G s)) ->
    quoted (fun c => match quotedRune s c esc r with (s, c, None) => Some (s, c, tError) | (s, c, Some r) => G (writeRune s r) c end).
  Proof.
    intros HG. destruct (p_quotedRune s esc r) as (s' & x & [H|(-> & [H|[e H]])]).
    - destruct x as [r'|].
      + destruct (HG (writeRune s' r')) as [N|(s2 & [H2|[H2|[e H2]]])]; [left|right; exists s2; left|right; exists s2; right; left|right; exists s2; right; right; exists e]; intros c; rewrite H; auto.
      + right. exists s'. right. left. intros c. now rewrite H.
    - right. exists s'. right. left. intros c. now rewrite H.
    - right. exists s'. right. right. exists e. intros c. now rewrite H.
  Qed.

  Lemma q_quoted fuel esc : forall s, quoted (fun c => scanQuotedConstant fuel s c esc).
  Proof.
    induction fuel as [|fuel IH]; intros s; cbn [scanQuotedConstant]; [left; reflexivity|]. destruct (readRune s) as [r s'].
    destruct (r =? tEOF); [right; exists s'; right; right; eexists; reflexivity|]. destruct (r =? tError); [right; exists s'; right; left; reflexivity|].
    destruct (r =? 39).
    - destruct (readRune s') as [r2 s2]. destruct (x_is_space r2).
      + destruct (quoteSpace (S fuel) s2 r2 false) as [[[s3 r3] nl]|]; [|left; reflexivity]. destruct ((r3 =? 39) && nl); [apply IH|].
        destruct (r3 =? tError); right; eexists; [right; left; reflexivity|left; reflexivity].
      + destruct (negb (r2 =? 39)); [right; eexists; left; reflexivity|]. apply (q_put s2 esc r2 (fun s c => scanQuotedConstant fuel s c esc)), IH.
    - apply (q_put s' esc r (fun s c => scanQuotedConstant fuel s c esc)), IH.
  Qed.

  Lemma u_string fuel s esc : uniform (fun c => scanString fuel s c esc).
  Proof.
    unfold scanString. destruct (q_quoted fuel esc s) as [N|(s' & [H|[H|[e H]]])].
    - left. intros c. now rewrite N.
    - right. exists s', (-6), (fun c => set_string c (b_string (s_buffer s'))). split; [intros c; now rewrite H|]. left. reflexivity.
    - right. exists s', (-3), (fun c => c). split; [intros c; now rewrite H|]. right. now split.
    - right. exists s', (-3), (fun c => set_error c e). split; [intros c; now rewrite H|]. left. reflexivity.
  Qed.
  Lemma u_bytes fuel s esc : uniform (fun c => scanBytes fuel s c esc).
  Proof.
    unfold scanBytes. destruct (q_quoted fuel esc s) as [N|(s' & [H|[H|[e H]]])].
    - left. intros c. now rewrite N.
    - right. exists s', tBytes, (fun c => set_bytes c (b_bytes (s_buffer s'))). split; [intros c; now rewrite H|]. left. reflexivity.
    - right. exists s', (-3), (fun c => c). split; [intros c; now rewrite H|]. right. now split.
    - right. exists s', (-3), (fun c => set_error c e). split; [intros c; now rewrite H|]. left. reflexivity.
  Qed.
  Lemma u_hexbytes fuel : forall s, uniform (fun c => scanHexBytes fuel s c).
  Proof.
    induction fuel as [|fuel IH]; intros s; cbn [scanHexBytes]; [left; reflexivity|]. destruct (readRune s) as [r s']. destruct (r =? tEOF); [fixed|]. destruct (r =? tError); [fixed|].
    destruct (r =? 39); [fixed|]. destruct (p_hexdigit (unreadRune s')) as (s1 & x1 & [H1|(-> & [H1|[e H1]])]).
    - destruct x1 as [d1|].
      + destruct (p_hexdigit s1) as (s2 & x2 & [H2|(-> & [H2|[e H2]])]).
        * destruct x2 as [d2|].
          -- destruct (IH (writeByte s2 (zb (d1 * 16 + d2)))) as [N|(s3 & tk & f & E & H)]; [left|right; exists s3, tk, f; split; [|exact H]]; intros c; rewrite H1, H2; auto.
          -- right. exists s2, (-3), (fun c => c). split; [intros c; now rewrite H1, H2|]. right. now split.
        * right. exists s2, (-3), (fun c => c). split; [intros c; now rewrite H1, H2|]. right. now split.
        * right. exists s2, (-3), (fun c => set_error c e). split; [intros c; now rewrite H1, H2|]. left. reflexivity.
      + right. exists s1, (-3), (fun c => c). split; [intros c; now rewrite H1|]. right. now split.
    - right. exists s1, (-3), (fun c => c). split; [intros c; now rewrite H1|]. right. now split.
    - right. exists s1, (-3), (fun c => set_error c e). split; [intros c; now rewrite H1|]. left. reflexivity.
  Qed.

  Ltac plain := known; left; intros; apply tok_plain.

  Lemma Operators_low r r2 t : Operators r r2 = Some t -> t <= -11.
  Proof.
    unfold Operators. intros H. destruct (find _ operators) as [[[a b] t']|] eqn:E; [|discriminate]. injection H as <-. apply find_some in E. destruct E as [E _].
    cbn in E. repeat destruct E as [E|E]; try (injection E as <- <- <-; lia). contradiction.
  Qed.

  Lemma u_token fuel s r : 0 <= r -> uniform (fun c => scanToken fuel s c r).
  Proof.
    intros Hr. unfold scanToken. cbv zeta.
    pose (pos := fun c => set_position c (s_line s) (s_column s)). assert (Hp : forall c, c_error (pos c) = c_error c) by reflexivity.
    repeat match goal with
    | |- uniform (fun c => if ?b then _ else _) => destruct b eqn:?
    | |- uniform (fun c => let '(_, _) := readRune ?s in _) => destruct (readRune s) as [? ?]
    | |- uniform (fun c => match Operators ?a ?b with _ => _ end) => destruct (Operators a b) eqn:?
    end;
    lazymatch goal with
    | |- uniform (fun c => scanString ?fu ?s _ ?e) => exact (u_pre _ pos Hp (u_string fu s e))
    | |- uniform (fun c => scanBytes ?fu ?s _ ?e) => exact (u_pre _ pos Hp (u_bytes fu s e))
    | |- uniform (fun c => scanHexBytes ?fu ?s _) => exact (u_pre _ pos Hp (u_hexbytes fu s))
    | |- uniform (fun c => scanIdentifier ?fu ?s _ ?r) => exact (u_pre _ pos Hp (u_ident fu s r))
    | |- uniform (fun c => scanNumber ?fu ?s _ ?r ?k) => exact (u_pre _ pos Hp (u_number fu s r k))
    | |- uniform (fun c => scanQuotedIdentifier ?fu ?s _ ?r) => exact (u_pre _ pos Hp (u_quoted fu s r))
    | |- uniform (fun c => scanParameter ?fu ?s _ ?r) => exact (u_pre _ pos Hp (u_parameter fu s r))
    | |- _ => idtac
    end;
    try (plain; first [lia | (right; right; right; eapply Operators_low; eassumption) | (right; left; discriminate)]); fixed.
  Qed.

  Definition nn (s : scanner) : Prop := Forall (fun r => 0 <= r) (s_in s) /\ (s_unread s = true -> -1 <= s_read s).

  Lemma nn_read s r s' : nn s -> readRune s = (r, s') -> -1 <= r /\ nn s' /\ nn (unreadRune s').
  Proof.
    intros [H1 H2]. unfold readRune. destruct (s_unread s) eqn:E.
    - intros [= <- <-]. specialize (H2 eq_refl). repeat split; cbn; auto; discriminate.
    - destruct (s_in s) as [|x l] eqn:Ei; intros [= <- <-]; (split; [|split; split]); cbn; try lia; try (now constructor); try discriminate; inversion H1; subst; auto; lia.
  Qed.
  Lemma nn_skip fuel : forall s r s', nn s -> skipWhitespace fuel s = Some (r, s') -> -1 <= r /\ nn s'.
  Proof.
    induction fuel as [|fuel IH]; intros s r s' H; cbn [skipWhitespace]; [discriminate|]. destruct (readRune s) as [r1 s1] eqn:E. destruct (nn_read _ _ _ H E) as (H1 & H2 & _).
    destruct ((r1 <? 0) || negb (x_is_space r1)); [intros [= <- <-]; auto|]. now apply IH.
  Qed.
  Lemma nn_line fuel : forall s o s', nn s -> lineComment fuel s = Some (o, s') -> (forall r, o = Some r -> r = -1) /\ nn s'.
  Proof.
    induction fuel as [|fuel IH]; intros s o s' H; cbn [lineComment]; [discriminate|]. destruct (readRune s) as [r1 s1] eqn:E. destruct (nn_read _ _ _ H E) as (H1 & H2 & _).
    destruct (Z.ltb_spec r1 0); [intros [= <- <-]; split; [intros r [= <-]; lia|exact H2]|]. destruct (r1 =? 10); [intros [= <- <-]; split; [discriminate|exact H2]|]. now apply IH.
  Qed.
  Lemma nn_block fuel : forall s p o s', nn s -> blockComment fuel s p = Some (o, s') -> (forall r, o = Some r -> r = -1) /\ nn s'.
  Proof.
    induction fuel as [|fuel IH]; intros s p o s' H; cbn [blockComment]; [discriminate|]. destruct (readRune s) as [r1 s1] eqn:E. destruct (nn_read _ _ _ H E) as (H1 & H2 & _).
    destruct (Z.ltb_spec r1 0); [intros [= <- <-]; split; [intros r [= <-]; lia|exact H2]|]. destruct (_ && _); [intros [= <- <-]; split; [discriminate|exact H2]|]. now apply IH.
  Qed.
  Lemma nn_comments fuel s r : nn s -> match comments fuel s r with Some (Again s') => nn s' | Some (Return r2 _) => r2 = -1 | _ => True end.
  Proof.
    intros H. unfold comments. cbv zeta. destruct (r =? tMinus).
    - destruct (readRune s) as [r1 s1] eqn:E. destruct (nn_read _ _ _ H E) as (H1 & H2 & _). destruct (r1 =? tMinus).
      + destruct (lineComment fuel s1) as [[[r2|] s2]|] eqn:E2; auto; apply nn_line in E2; auto; [now apply E2|apply E2].
      + destruct (Z.ltb_spec r1 0); auto. lia.
    - destruct (r =? tSlash); [|exact Logic.I]. destruct (readRune s) as [r1 s1] eqn:E. destruct (nn_read _ _ _ H E) as (H1 & H2 & _). destruct (r1 =? tStar).
      + destruct (blockComment fuel s1 0) as [[[r2|] s2]|] eqn:E2; auto; apply nn_block in E2; auto; [now apply E2|apply E2].
      + destruct (Z.ltb_spec r1 0); auto. lia.
  Qed.

  Lemma u_scan fuel : forall s, nn s -> uniform (fun c => scan fuel s c).
  Proof.
    induction fuel as [|fuel IH]; intros s H; cbn [scan]; [left; reflexivity|]. destruct (skipWhitespace (S fuel) s) as [[r s1]|] eqn:E; [|left; reflexivity].
    destruct (nn_skip _ _ _ _ H E) as [H1 H2]. destruct (Z.ltb_spec r 0) as [N|N]; [plain; lia|]. destruct (r =? 59); [plain; lia|].
    pose proof (nn_comments (S fuel) s1 r H2) as Hc. destruct (comments (S fuel) s1 r) as [[s2|r2 s2|s2]|]; [now apply IH|subst r2; plain; lia|now apply u_token|left; reflexivity].
  Qed.

  Lemma sane_nn s : sane s -> nn s.
  Proof. intros (H1 & _ & H2). split; [exact H1|]. intros E. destruct (Z.ltb_spec (s_read s) 0) as [N|N]; [destruct (H2 E N); lia|lia]. Qed.

  Context (HU : RuneLib_scan U).

  (** The same scanner and the same token, whatever the contexts. *)
  Lemma Scan_uniform input s c d s' c' : scanning input s -> ~ bad_escape (rest s) -> Scan s c = Some (s', c') ->
    exists d', Scan s d = Some (s', d') /\ tok_of d' = tok_of c'.
  Proof.
    intros HS HB. pose proof (sane_nn _ (scanning_sane HU _ _ HS)) as Hn. unfold Scan, ScanFuel.
    assert (Hn' : nn (set_buffer s (b_reset (s_buffer s)))) by exact Hn.
    destruct (u_scan (scan_fuel s) _ Hn') as [N|(s1 & tk & f & E & H)]; [now rewrite N|]. rewrite !E. intros [= <- <-].
    exists (set_token (f d) tk). split; [reflexivity|]. destruct H as [H|[-> H]]; [apply H|]. exfalso.
    assert (E0 : Scan s c_zero = Some (s1, set_token (f c_zero) (-3))) by (unfold Scan, ScanFuel; now rewrite E).
    destruct (sound HU _ _ _ _ _ HS E0) as [(T & _)|[(_ & _ & [T|T])|(g & w & l & v & _ & _ & R3 & R4)]].
    - discriminate T.
    - apply T. cbn. apply H.
    - contradiction.
    - destruct (lexeme_holds_token _ _ _ _ _ _ _ R3 R4) as (_ & T & _). now apply T.
  Qed.
End Uniform.
