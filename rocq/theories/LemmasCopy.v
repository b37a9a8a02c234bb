(** COPY is parsed as it is written, and the data are left. *)

From Verif Require Import ModelParser SpecParser SpecTokens SpecIdent SpecAccepts SpecCopy SpecPosition LemmasBase LemmasIdent LemmasScanner LemmasScanProps LemmasListRun LemmasGrammar LemmasGrammarStmt LemmasParserProps LemmasGrammarLink LemmasCreate LemmasSound LemmasSoundNames LemmasSoundDeref LemmasSoundWords LemmasSoundStmt LemmasSoundLink LemmasPosition.

(** ** What the scanner holds back behind a token *)

Section Held.
  Context {X : FloatLib} {L : CaseLib} {U : RuneLib} {B : BufLib}.

  Lemma quoteSpace_read fuel : forall s r nl s' r' nl', s_unread s = false -> quoteSpace fuel s r nl = Some (s', r', nl') -> s_unread s' = false.
  Proof.
    induction fuel as [|fuel IH]; intros s r nl s' r' nl' H; cbn [quoteSpace]; [discriminate|]. destruct (x_is_space r); [|now intros [= <- _ _]].
    destruct (readRune s) as [r1 s1] eqn:E. intros K. apply IH in K; [exact K|]. now apply read_unread in E.
  Qed.
  Lemma constant_held fuel : forall s c esc s' c' r, scanQuotedConstant fuel s c esc = Some (s', c', r) -> r <> tError -> s_unread s' = true.
  Proof.
    induction fuel as [|fuel IH]; intros s c esc s' c' r; cbn [scanQuotedConstant]; [discriminate|]. destruct (readRune s) as [r1 s1].
    destruct (r1 =? tEOF); [intros [= _ _ <-] N; now contradiction N|]. destruct (r1 =? tError); [intros [= _ _ <-] N; now contradiction N|].
    assert (P : forall s0 r0, match quotedRune s0 c esc r0 with (s, c, None) => Some (s, c, tError) | (s, c, Some r) => scanQuotedConstant fuel (writeRune s r) c esc end = Some (s', c', r) -> r <> tError -> s_unread s' = true).
    { intros s0 r0. destruct (quotedRune s0 c esc r0) as [[s2 c2] [r2|]]; [apply IH|intros [= _ _ <-] N; now contradiction N]. }
    destruct (r1 =? 39); [|apply P]. destruct (readRune s1) as [r2 s2]. destruct (x_is_space r2).
    - destruct (quoteSpace (S fuel) s2 r2 false) as [[[s3 r3] nl]|]; [|discriminate]. destruct ((r3 =? 39) && nl); [apply IH|].
      destruct (r3 =? tError); [intros [= _ _ <-] N; now contradiction N|]. now intros [= <- _ _] _.
    - destruct (negb (r2 =? 39)); [now intros [= <- _ _] _|apply P].
  Qed.

  (** Behind what ends a statement nothing is held back, behind a string one rune. *)
  Definition held (t : Z) (s : scanner) : Prop := ((t = tEOF \/ t = tEndOfStatement) -> s_unread s = false) /\ (t = tString -> s_unread s = true).
  Lemma held_other t s : t <> tEOF -> t <> tEndOfStatement -> t <> tString -> held t s.
  Proof. intros A C D. split; [intros [K|K]; contradiction|intros K; contradiction]. Qed.
  Ltac other := (apply held_other; discriminate).

  Lemma scanIdentifier_held fuel s c r s' c' t : scanIdentifier fuel s c r = Some (s', c', t) -> held t s'.
  Proof. unfold scanIdentifier. destruct (identifierLoop fuel s r) as [s1|]; [|discriminate]. destruct (ID _ _ _) as [t1 i]. intros [= <- _ <-]. destruct (IsReserved i); other. Qed.
  Lemma scanNumber_held fuel s c r sg s' c' t : scanNumber fuel s c r sg = Some (s', c', t) -> held t s'.
  Proof.
    unfold scanNumber. destruct (numberLoop fuel s false r) as [[s1 d]|]; [|discriminate].
    destruct d; [destruct (x_parse_float _)|destruct (parse_int _)]; intros [= <- _ <-]; other.
  Qed.
  Lemma scanParameter_held fuel s c r s' c' t : scanParameter fuel s c r = Some (s', c', t) -> held t s'.
  Proof.
    unfold scanParameter. destruct (parameterLoop fuel s r) as [s1|]; [|discriminate]. destruct (parse_int _) as [i|]; [destruct (i =? 0)|]; intros [= <- _ <-]; other.
  Qed.
  Lemma scanQuotedIdentifier_held fuel s c d s' c' t : scanQuotedIdentifier fuel s c d = Some (s', c', t) -> held t s'.
  Proof.
    unfold scanQuotedIdentifier. destruct (quotedIdentifierLoop fuel s d) as [[s1 [|]]|]; [|intros [= <- _ <-]; other|discriminate].
    destruct (ID _ _ _) as [t1 i]. intros [= <- _ <-]; other.
  Qed.
  Lemma scanString_held fuel s c e s' c' t : scanString fuel s c e = Some (s', c', t) -> held t s'.
  Proof.
    unfold scanString. destruct (scanQuotedConstant fuel s c e) as [[[s1 c1] r]|] eqn:E; [|discriminate]. destruct (Z.eqb_spec r tError) as [K|K]; intros [= <- _ <-]; [other|].
    split; [intros [D|D]; discriminate|]. intros _. exact (constant_held _ _ _ _ _ _ _ E K).
  Qed.
  Lemma scanBytes_held fuel s c e s' c' t : scanBytes fuel s c e = Some (s', c', t) -> held t s'.
  Proof.
    unfold scanBytes. destruct (scanQuotedConstant fuel s c e) as [[[s1 c1] r]|] eqn:E; [|discriminate]. destruct (r =? tError); intros [= <- _ <-]; other.
  Qed.
  Lemma scanHexBytes_held fuel : forall s c s' c' t, scanHexBytes fuel s c = Some (s', c', t) -> held t s'.
  Proof.
    induction fuel as [|fuel IH]; intros s c s' c' t; cbn [scanHexBytes]; [discriminate|]. destruct (readRune s) as [r s1].
    destruct (r =? tEOF); [intros [= <- _ <-]; other|]. destruct (r =? tError); [intros [= <- _ <-]; other|]. destruct (r =? 39); [intros [= <- _ <-]; other|].
    destruct (scanHexDigit (unreadRune s1) c) as [[s2 c2] [d1|]]; [|intros [= <- _ <-]; other].
    destruct (scanHexDigit s2 c2) as [[s3 c3] [d2|]]; [apply IH|intros [= <- _ <-]; other].
  Qed.
  Lemma op_held r s : IsOpRune r = true -> held r s.
  Proof.
    unfold IsOpRune. intros H. apply existsb_exists in H. destruct H as (x & Hx & E). apply Z.eqb_eq in E. subst x.
    cbn in Hx. repeat destruct Hx as [<-|Hx]; try contradiction; other.
  Qed.
  Lemma ops_held a b r s : Operators a b = Some r -> held r s.
  Proof.
    unfold Operators. destruct (find _ operators) as [o|] eqn:E; [|discriminate]. cbn [option_map]. intros [= <-]. apply find_some in E. destruct E as [E _].
    cbn in E. repeat destruct E as [<-|E]; try contradiction; other.
  Qed.

  Lemma scanToken_held fuel s c r s' c' t : scanToken fuel s c r = Some (s', c', t) -> held t s'.
  Proof.
    unfold scanToken. set (c0 := set_position c (s_line s) (s_column s)). clearbody c0.
    destruct (_ || _). { destruct (readRune s) as [r2 s2]. destruct (r2 =? 39); [apply scanString_held|apply scanIdentifier_held]. }
    destruct (r =? 98). { destruct (readRune s) as [r2 s2]. destruct (r2 =? 39); [apply scanBytes_held|apply scanIdentifier_held]. }
    destruct (_ || _). { destruct (readRune s) as [r2 s2]. destruct (r2 =? 39); [apply scanHexBytes_held|apply scanIdentifier_held]. }
    destruct (_ || _); [apply scanIdentifier_held|]. destruct (x_is_digit r); [apply scanNumber_held|].
    destruct (r =? tPlus). { destruct (readRune s) as [r2 s2]. destruct (x_is_digit r2); [apply scanNumber_held|intros [= <- _ <-]; other]. }
    destruct (r =? tMinus). { destruct (readRune s) as [r2 s2]. destruct (x_is_digit r2); [apply scanNumber_held|intros [= <- _ <-]; other]. }
    destruct (_ || _); [apply scanQuotedIdentifier_held|]. destruct (r =? 91); [apply scanQuotedIdentifier_held|]. destruct (r =? 39); [apply scanString_held|].
    destruct (IsOpRune r) eqn:EO.
    { destruct (readRune (writeRune s r)) as [r2 s2]. destruct (_ || _); [intros [= <- _ <-]; exact (op_held _ _ EO)|]. destruct (IsOpRune r2); [|intros [= <- _ <-]; exact (op_held _ _ EO)].
      destruct (Operators r r2) as [r3|] eqn:E; intros [= <- _ <-]; [exact (ops_held _ _ _ _ E)|other]. }
    destruct (_ || _) eqn:EP.
    { intros [= <- _ <-]. repeat rewrite orb_true_iff in EP. rewrite !Z.eqb_eq in EP. destruct EP as [[[[->| ->]| ->]| ->]| ->]; other. }
    destruct (r =? 36); [|intros [= <- _ <-]; other]. destruct (readRune s) as [r2 s2]. destruct (negb _); [intros [= <- _ <-]; other|apply scanParameter_held].
  Qed.

  (** Runes that are negative are the end of the file. *)
  Definition low (s : scanner) : Prop := Forall (fun r => 0 <= r) (s_in s) /\ (s_unread s = true -> s_read s < 0 -> s_read s = -1).
  Definition quiet (s : scanner) : Prop := low s /\ s_unread s = false.
  Lemma read_quiet s r s' : low s -> readRune s = (r, s') -> quiet s' /\ (r < 0 -> r = -1).
  Proof.
    intros [F K]. unfold readRune. destruct (s_unread s) eqn:EU; [intros [= <- <-]; repeat split; auto; discriminate|].
    destruct (s_in s) as [|x l] eqn:E; intros [= <- <-]; repeat split; auto; try discriminate; inversion F; subst; [assumption|lia].
  Qed.

  Lemma skipWhitespace_read fuel : forall s r s', low s -> ModelScanner.skipWhitespace fuel s = Some (r, s') -> quiet s' /\ (r < 0 -> r = -1).
  Proof.
    induction fuel as [|fuel IH]; intros s r s' H; cbn [ModelScanner.skipWhitespace]; [discriminate|]. destruct (readRune s) as [r1 s1] eqn:E. apply (read_quiet _ _ _ H) in E.
    destruct (_ || _); [now intros [= <- <-]|apply IH, E].
  Qed.
  Definition left_by (o : option Z) : Prop := match o with Some r => r = -1 | None => True end.
  Lemma lineComment_read fuel : forall s r s', low s -> lineComment fuel s = Some (r, s') -> quiet s' /\ left_by r.
  Proof.
    induction fuel as [|fuel IH]; intros s r s' H; cbn [lineComment]; [discriminate|]. destruct (readRune s) as [r1 s1] eqn:E. apply (read_quiet _ _ _ H) in E. destruct E as [E1 E2].
    destruct (Z.ltb_spec r1 0); [intros [= <- <-]; split; [exact E1|now apply E2]|]. destruct (r1 =? 10); [now intros [= <- <-]|apply IH, E1].
  Qed.
  Lemma blockComment_read fuel : forall s p r s', low s -> blockComment fuel s p = Some (r, s') -> quiet s' /\ left_by r.
  Proof.
    induction fuel as [|fuel IH]; intros s p r s' H; cbn [blockComment]; [discriminate|]. destruct (readRune s) as [r1 s1] eqn:E. apply (read_quiet _ _ _ H) in E. destruct E as [E1 E2].
    destruct (Z.ltb_spec r1 0); [intros [= <- <-]; split; [exact E1|now apply E2]|]. destruct (_ && _); [now intros [= <- <-]|apply IH, E1].
  Qed.
  Lemma comments_held fuel s r : low s -> match comments fuel s r with Some (Return r2 s') => quiet s' /\ r2 = -1 | Some (Again s') => low s' | _ => True end.
  Proof.
    intros H. unfold comments. destruct (r =? tMinus); [|destruct (r =? tSlash); [|exact Logic.I]]; destruct (readRune s) as [r1 s1] eqn:E; apply (read_quiet _ _ _ H) in E; destruct E as [E1 E2].
    - destruct (r1 =? tMinus); [|destruct (Z.ltb_spec r1 0); [split; [exact E1|now apply E2]|exact Logic.I]].
      destruct (lineComment fuel s1) as [[[x|] s2]|] eqn:EL; [| |exact Logic.I]; apply lineComment_read in EL; try apply E1; [exact EL|apply EL].
    - destruct (r1 =? tStar); [|destruct (Z.ltb_spec r1 0); [split; [exact E1|now apply E2]|exact Logic.I]].
      destruct (blockComment fuel s1 0) as [[[x|] s2]|] eqn:EL; [| |exact Logic.I]; apply blockComment_read in EL; try apply E1; [exact EL|apply EL].
  Qed.

  Lemma end_held t s : quiet s -> t = -1 \/ t = tEndOfStatement -> held t s.
  Proof. intros [_ Q] H. split; [intros _; exact Q|intros K]. rewrite K in H. destruct H; discriminate. Qed.
  Lemma scan_held fuel : forall s c s' c' t, low s -> scan fuel s c = Some (s', c', t) -> held t s'.
  Proof.
    induction fuel as [|fuel IH]; intros s c s' c' t H; cbn [scan]; [discriminate|]. destruct (ModelScanner.skipWhitespace (S fuel) s) as [[r s1]|] eqn:E; [|discriminate].
    apply (skipWhitespace_read _ _ _ _ H) in E. destruct E as [E1 E2]. destruct (Z.ltb_spec r 0); [intros [= <- _ <-]; apply end_held; auto|]. destruct (r =? 59); [intros [= <- _ <-]; apply end_held; auto|].
    pose proof (comments_held (S fuel) s1 r (proj1 E1)) as EC. destruct (comments (S fuel) s1 r) as [[s2|r2 s2|s2]|]; [now apply IH| |apply scanToken_held|discriminate].
    intros [= <- _ <-]. apply end_held; [apply EC|left; apply EC].
  Qed.
  Lemma Scan_held s c s' c' : sane s -> Scan s c = Some (s', c') -> held (c_token c') s'.
  Proof.
    intros (S1 & _ & S3). unfold Scan, ScanFuel. destruct (scan _ _ c) as [[[s1 c1] t]|] eqn:E; [|discriminate]. intros [= <- <-].
    eapply scan_held; [|exact E]. split; [exact S1|]. intros K1 K2. now apply S3.
  Qed.
End Held.

(** ** Lines *)

Section Lines.
  Context {X : FloatLib} {L : CaseLib} {U : RuneLib} {B : BufLib} (HU : RuneLib_scan U).

  Lemma position_count text l k : position text l k -> l = line_behind text.
  Proof.
    intros (a & b & -> & Hb & _ & -> & _). unfold line_behind. rewrite count_occ_app. apply (count_occ_not_In Z.eq_dec) in Hb. rewrite Hb. lia.
  Qed.
  Lemma some_position l k : 1 <= l -> 0 <= k -> exists text, position text l k /\ line_behind text = l.
  Proof.
    intros Hl Hk. exists (repeat 10 (Z.to_nat (l - 1)) ++ repeat 0 (Z.to_nat k)).
    assert (C : forall n, count_occ Z.eq_dec (repeat 10 n) 10 = n) by (induction n as [|n IH]; [reflexivity|cbn [repeat]; rewrite count_occ_cons_eq by reflexivity; now rewrite IH]).
    assert (P : position (repeat 10 (Z.to_nat (l - 1)) ++ repeat 0 (Z.to_nat k)) l k).
    { exists (repeat 10 (Z.to_nat (l - 1))), (repeat 0 (Z.to_nat k)). split; [reflexivity|]. split; [intros K; apply repeat_spec in K; discriminate|]. split.
      - destruct (Z.to_nat (l - 1)) as [|n]; [now left|right]. exists (repeat 10 n). replace (S n) with (n + 1)%nat by lia. now rewrite repeat_app.
      - rewrite C, repeat_length. lia. }
    split; [exact P|]. symmetry. exact (position_count _ _ _ P).
  Qed.
  Lemma line_behind_app a b : line_behind (a ++ b) = line_behind a + Z.of_nat (count_occ Z.eq_dec b 10).
  Proof. unfold line_behind. rewrite count_occ_app. lia. Qed.

  Lemma moves_line s s' : moves s s' -> 1 <= s_line s -> 0 <= s_column s ->
    exists k, s_in s = k ++ s_in s' /\ s_line s' = s_line s + Z.of_nat (count_occ Z.eq_dec k 10) /\ 0 <= s_column s'.
  Proof.
    intros (k & E & H) H1 H2. destruct (some_position _ _ H1 H2) as (text & P & LB). pose proof (H _ P) as P'. exists k. split; [exact E|]. split.
    - rewrite (position_count _ _ _ P'), line_behind_app, LB. reflexivity.
    - destruct P' as (a & b & _ & _ & _ & _ & ->). lia.
  Qed.

  Definition lined (input : list Z) (s : scanner) : Prop := exists before, input = before ++ s_in s /\ s_line s = line_behind before /\ 0 <= s_column s.
  Lemma lined_moves input s s' : lined input s -> moves s s' -> lined input s'.
  Proof.
    intros (b & E & LB & C) M. destruct (moves_line _ _ M) as (k & E' & L' & C').
    - rewrite LB. unfold line_behind. lia.
    - exact C.
    - exists (b ++ k). split; [now rewrite E, E', app_assoc|]. split; [|exact C']. now rewrite L', LB, line_behind_app.
  Qed.
  Lemma dropLine_all l : forall l', dropLine l = (l', false) -> ~ In 10 l /\ l' = [].
  Proof.
    induction l as [|r l IH]; intros l'; cbn [dropLine]; [intros [= <-]; split; [intros []|reflexivity]|]. destruct (Z.eqb_spec r 10); [discriminate|]. intros H. apply IH in H. destruct H as [H1 H2].
    split; [|exact H2]. intros [K|K]; [now apply n|now apply H1].
  Qed.
  Lemma reader_behind s : behind_line (s_in s) (s_in (RuneReader s)).
  Proof.
    unfold RuneReader. destruct (dropLine (s_in s)) as [l [|]] eqn:E; cbn [s_in].
    - left. exact (dropLine_spec _ _ E).
    - right. exact (dropLine_all _ _ E).
  Qed.
  Lemma behind_fun l d d' : behind_line l d -> behind_line l d' -> d = d'.
  Proof.
    assert (K : forall u d u' d' : list Z, u ++ 10 :: d = u' ++ 10 :: d' -> ~ In 10 u -> ~ In 10 u' -> d = d').
    { induction u as [|x u IH]; intros d0 [|x' u'] d0'; cbn [app]; intros E N N'.
      - now injection E.
      - injection E as E0 _. exfalso. apply N'. left. congruence.
      - injection E as E0 _. exfalso. apply N. left. congruence.
      - injection E as -> E. eapply IH; [exact E|intros K; apply N; now right|intros K; apply N'; now right]. }
    intros [(u & -> & N)|[N ->]] [(u' & E & N')|[N' ->]]; try reflexivity.
    - eapply K; eassumption.
    - exfalso. apply N', in_or_app. right. now left.
    - exfalso. apply N. rewrite E. apply in_or_app. right. now left.
  Qed.
  Lemma reader_lined input s : lined input s -> lined input (RuneReader s).
  Proof.
    intros HL. destruct (dropLine (s_in s)) as [l [|]] eqn:E; [apply (lined_moves _ _ _ HL), RuneReader_moves; now exists l|].
    destruct HL as (b & E1 & E2 & E3). unfold RuneReader. rewrite E. destruct (dropLine_all _ _ E) as [N ->]. exists input. cbn [s_in s_line s_column]. rewrite app_nil_r. split; [reflexivity|]. split; [|exact E3].
    rewrite E1, line_behind_app, E2. apply (count_occ_not_In Z.eq_dec) in N. rewrite N. lia.
  Qed.
  Lemma scanning_lined input s : scanning input s -> lined input s.
  Proof.
    induction 1 as [ids input F|input s c s' c' H IH E|input s t H IH|input s H IH|input s H IH].
    - exists []. split; [reflexivity|]. split; [reflexivity|]. cbn. lia.
    - apply (lined_moves _ _ _ IH). now apply Scan_moves in E.
    - exact IH.
    - now apply reader_lined.
    - apply (lined_moves _ _ _ IH), data_moves.
  Qed.
End Lines.

(** ** COPY, up to the line of data *)

Definition copyHead (n : nat) : act (tablename * list Z * tok) :=
  let+ tn := parseTableName in
  let+ paren := maybeToken tLParen in
  let+ cols := (if paren then parseDistinctColumns n else ARet []) in
  expectReserved [kFROM] ;+
  let+ id := expectIdentifier in
  if negb (id =? iSTDIN) then AError
  else let+ t := scan_ in ARet (tn, cols, t).
Definition copyReader (tn : tablename) (cols : list Z) (d : Z) : act stmt := AReader (fun line => ARet (SCopy tn cols line d)).
Definition copyTail (x : tablename * list Z * tok) : act stmt :=
  let '(tn, cols, k) := x in
  if is_reserved k [kDELIMITER] then
    let+ t := scan_ in match t with KString [c] => copyReader tn cols (bz c) | _ => AError end
  else unscan_ ;+ copyReader tn cols 9.
Definition wholeTail (s : stmt) : act (option stmt) := expectEndOfStatement ;+ ARet (Some s).

Section Copying.
  Context {X : FloatLib} {L : CaseLib} {U : RuneLib} {B : BufLib} {P : PrintLib} (HU : RuneLib_scan U).

  Lemma t_run_assoc {A D E} (g : act A) (h : A -> act D) (k : D -> act E) t : t_run (abind (abind g h) k) t = t_run (abind g (fun x => abind (h x) k)) t.
  Proof. rewrite !t_run_bind. destruct (t_run g t); try reflexivity. now rewrite t_run_bind. Qed.
  Lemma t_run_ext {A D} (g : act A) (h h' : A -> act D) t : (forall x t', t_run (h x) t' = t_run (h' x) t') -> t_run (abind g h) t = t_run (abind g h') t.
  Proof. intros H. rewrite !t_run_bind. destruct (t_run g t); try reflexivity. apply H. Qed.

  Lemma copy_split n t : t_run (parseCopy n) t = t_run (abind (copyHead n) copyTail) t.
  Proof.
    unfold parseCopy, copyHead. rewrite t_run_assoc. apply t_run_ext. clear t. intros tn t. rewrite t_run_assoc. apply t_run_ext. clear t. intros paren t. rewrite t_run_assoc. apply t_run_ext. clear t. intros cols t.
    rewrite t_run_assoc. apply t_run_ext. clear t. intros kw t. rewrite t_run_assoc. apply t_run_ext. clear t. intros i t. destruct (negb (i =? iSTDIN)); [reflexivity|].
    unfold optionalReserved. rewrite !t_run_assoc. apply t_run_ext. clear t. intros k t. cbn [abind copyTail]. destruct (is_reserved k [kDELIMITER]).
    - cbn [abind]. rewrite t_run_assoc. apply t_run_ext. clear t. intros t t'. destruct t as [| | | | |[|c [|? ?]]| | | | |]; reflexivity.
    - rewrite t_run_assoc. apply t_run_ext. reflexivity.
  Qed.

  (** From the token COPY on. *)
  Lemma whole_copy n t c : t_ahead t = [c] -> tok_of c = KReserved kCOPY ->
    t_run (parseWhole n) t = t_run (abind (copyHead n) (fun x => abind (copyTail x) wholeTail)) {| t_past := c :: t_past t; t_ahead := []; t_scanner := t_scanner t |}.
  Proof.
    intros EA EC. unfold parseWhole, parseStmt. rewrite t_run_assoc, t_run_bind. unfold maybeToken, scan_, unscan_. cbn [abind t_run t_next]. unfold t_next. rewrite EA. unfold t_tok. cbn [t_past hd]. rewrite EC.
    cbn [rune_of Z.eqb Pos.eqb abind t_run t_back t_past t_ahead t_scanner]. rewrite t_run_assoc, t_run_bind. unfold expectReserved, scan_. cbn [abind t_run t_next t_ahead t_past t_scanner]. unfold t_next, t_tok. cbn [t_ahead t_past t_scanner hd].
    rewrite EC. change (is_reserved (KReserved kCOPY) stmtKeywords) with true. cbn [t_run]. set (t1 := {| t_past := _; t_ahead := _; t_scanner := _ |}).
    unfold parseStmtOf. cbn [ident_of Z.eqb Pos.eqb]. rewrite t_run_assoc, <- (t_run_assoc (copyHead n) copyTail wholeTail), (t_run_bind (parseCopy n)), copy_split, <- t_run_bind. reflexivity.
  Qed.

  (** ** Looking ahead by one token *)

  Definition shows (c : sctx) (s : scanner) : Prop :=
    match tok_of c with KEOF | KEnd => s_unread s = false | KString _ => s_in s = tl (rest s) | _ => True end.
  Definition seen (t : tape) : Prop := match rev (t_ahead t) ++ t_past t with c :: _ => shows c (t_scanner t) | [] => True end.

  Lemma Scan_shows input s c s' c' : scanning input s -> Scan s c = Some (s', c') -> shows c' s'.
  Proof.
    intros H E. destruct (Scan_held s c s' c' (scanning_sane HU _ _ H) E) as [K1 K2].
    destruct (scanning_sane HU _ _ (sc_scan _ _ _ _ _ H E)) as (_ & _ & K3). unfold shows, tok_of.
    destruct (Z.eqb_spec (c_token c') tEOF); [apply K1; now left|]. destruct (Z.eqb_spec (c_token c') tEndOfStatement); [apply K1; now right|].
    destruct (_ =? tError); [exact Logic.I|]. destruct (_ =? tIdentifier); [exact Logic.I|]. destruct (_ =? tReserved); [exact Logic.I|].
    destruct (Z.eqb_spec (c_token c') tString) as [K|K]; [|repeat match goal with |- context [if ?b then _ else _] => destruct b end; exact Logic.I].
    specialize (K2 K). unfold rest. rewrite K2 in *. destruct (Z.ltb_spec (s_read s') 0) as [N|N]; [|reflexivity]. destruct (K3 eq_refl N) as [_ ->]. reflexivity.
  Qed.

  Section Calm.
    Variable input : list Z.
    Definition calm_state (t : tape) : Prop := scanning input (t_scanner t) /\ (length (t_ahead t) <= 1)%nat /\ seen t.
    Definition calm {A} (g : act A) : Prop := forall t x t', calm_state t -> t_run g t = Done x t' -> calm_state t'.

    Lemma next_calm t t' b : calm_state t -> t_next t = Some (t', b) -> calm_state t' /\ t_ahead t' = [].
    Proof.
      intros (C1 & C2 & C3). unfold t_next. destruct (t_ahead t) as [|c [|? ?]] eqn:EA; cbn [length] in C2; [|intros [= <- _]|lia].
      - destruct (Scan (t_scanner t) _) as [[s c]|] eqn:E; [|discriminate]. intros [= <- _]. split; [|reflexivity]. split; [exact (sc_scan _ _ _ _ _ C1 E)|]. split; [cbn; lia|].
        unfold seen. cbn [t_ahead t_past t_scanner rev app]. exact (Scan_shows _ _ _ _ _ C1 E).
      - split; [|reflexivity]. split; [exact C1|]. split; [cbn; lia|]. unfold seen in *. rewrite EA in C3. exact C3.
    Qed.
    Lemma back_calm t t' : t_ahead t = [] -> calm_state t -> t_back t = Some t' -> calm_state t'.
    Proof.
      intros EA (C1 & C2 & C3). unfold t_back. destruct (t_past t) as [|c past] eqn:EP; [discriminate|]. intros [= <-]. split; [exact C1|]. rewrite EA. split; [cbn; lia|].
      unfold seen in *. rewrite EA, EP in C3. exact C3.
    Qed.

    Lemma calm_ret {A} (x : A) : calm (ARet x).
    Proof. intros t y t' C [= _ <-]. exact C. Qed.
    Lemma calm_bind {A D} (g : act A) (h : A -> act D) : calm g -> (forall x, calm (h x)) -> calm (abind g h).
    Proof.
      intros H1 H2 t x t' C. rewrite t_run_bind. destruct (t_run g t) as [y t1| | |] eqn:E; try discriminate. intros K. exact (H2 y t1 x t' (H1 _ _ _ C E) K).
    Qed.
    Lemma calm_error {A} : calm (@AError A).
    Proof. intros t x t' C. discriminate. Qed.
    Lemma calm_got {A} : calm (@errorGot A).
    Proof. intros t x t' C. unfold errorGot. cbn. destruct (t_tok t) as [| |[|]| | | | | | | |]; discriminate. Qed.
    (** Scanning a token, putting it back or not. *)
    Lemma calm_scan {A} (h : tok -> act A) :
      (forall k t x t', calm_state t -> t_ahead t = [] -> t_run (h k) t = Done x t' -> calm_state t') -> calm (abind scan_ h).
    Proof.
      intros H t x t' C. unfold scan_. cbn [abind t_run]. destruct (t_next t) as [[t1 [|]]|] eqn:E; try discriminate. apply (next_calm _ _ _ C) in E. destruct E as [E1 E2]. now apply H.
    Qed.
    Lemma back_ret {A} (y : A) t x t' : calm_state t -> t_ahead t = [] -> t_run (unscan_ ;+ ARet y) t = Done x t' -> calm_state t'.
    Proof.
      intros C EA. unfold unscan_. cbn [abind t_run]. destruct (t_back t) as [t1|] eqn:E; [|discriminate]. intros [= _ <-]. exact (back_calm _ _ EA C E).
    Qed.
    Ltac done_ := lazymatch goal with
      | |- t_run (ARet _) _ = Done _ _ -> _ => intros [= _ <-]; assumption
      | |- t_run errorGot _ = Done _ _ -> _ => let K := fresh in intros K; exfalso; revert K; unfold errorGot; cbn; match goal with |- context[t_tok ?t] => destruct (t_tok t) as [| |[|]| | | | | | | |] end; discriminate
      | |- t_run (unscan_ ;+ ARet _) _ = Done _ _ -> _ => apply back_ret; assumption
      end.

    Lemma calm_scan_ : calm scan_.
    Proof. intros t x t' C. unfold scan_. cbn [t_run]. destruct (t_next t) as [[t1 [|]]|] eqn:E; try discriminate. intros [= _ <-]. exact (proj1 (next_calm _ _ _ C E)). Qed.
    Lemma calm_expectReserved l : calm (expectReserved l).
    Proof. unfold expectReserved. apply calm_scan. intros k t x t' C EA. destruct (is_reserved k l); done_. Qed.
    Lemma calm_optionalReserved l : calm (optionalReserved l).
    Proof. unfold optionalReserved. apply calm_scan. intros k t x t' C EA. destruct (is_reserved k l); done_. Qed.
    Lemma calm_expectIdentifier : calm expectIdentifier.
    Proof. unfold expectIdentifier. apply calm_scan. intros k t x t' C EA. destruct k; done_. Qed.
    Lemma calm_maybeToken r : calm (maybeToken r).
    Proof. unfold maybeToken. apply calm_scan. intros k t x t' C EA. destruct (_ =? r); done_. Qed.
    Lemma calm_expectTokens l : calm (expectTokens l).
    Proof. unfold expectTokens. apply calm_scan. intros k t x t' C EA. destruct (existsb _ l); done_. Qed.
    Lemma calm_loop {S T} (body : S -> act (S + T)) : (forall s, calm (body s)) -> forall n s, calm (aloop n body s).
    Proof.
      intros H. induction n as [|n IH]; intros s; cbn [aloop]; [intros t x t' C; discriminate|]. apply calm_bind; [apply H|]. intros [s'|r]; [apply IH|apply calm_ret].
    Qed.
    Ltac cs := repeat first
      [ apply calm_ret | apply calm_error | apply calm_got | apply calm_expectReserved | apply calm_optionalReserved | apply calm_expectIdentifier | apply calm_maybeToken | apply calm_expectTokens | apply calm_scan_
      | (apply calm_bind; [|intros ?]) | (apply calm_loop; intros ?)
      | match goal with |- calm (if ?b then _ else _) => destruct b end ].
    Lemma calm_tableName : calm parseTableName. Proof. unfold parseTableName. cs. Qed.
    Lemma calm_distinct n : calm (parseDistinctColumns n). Proof. unfold parseDistinctColumns. cs. Qed.
    Lemma calm_before n : calm (let+ tn := parseTableName in let+ paren := maybeToken tLParen in let+ cols := (if paren then parseDistinctColumns n else ARet []) in expectReserved [kFROM] ;+ let+ i := expectIdentifier in ARet (tn, cols, i)).
    Proof. cs. Qed.

    Lemma head_calm n t x t' : calm_state t -> t_run (copyHead n) t = Done x t' -> calm_state t' /\ t_ahead t' = [] /\ exists c past, t_past t' = c :: past /\ snd x = tok_of c.
    Proof.
      intros C E. unfold copyHead in E.
      assert (E' : t_run (abind (let+ tn := parseTableName in let+ paren := maybeToken tLParen in let+ cols := (if paren then parseDistinctColumns n else ARet []) in expectReserved [kFROM] ;+ let+ i := expectIdentifier in ARet (tn, cols, i))
          (fun y => if negb (snd y =? iSTDIN) then AError else let+ k := scan_ in ARet (fst y, k))) t = Done x t').
      { rewrite <- E. rewrite t_run_assoc. apply t_run_ext. intros tn t1. rewrite t_run_assoc. apply t_run_ext. intros paren t2. rewrite t_run_assoc. apply t_run_ext. intros cols t3. rewrite t_run_assoc. apply t_run_ext. intros kw t4.
        rewrite t_run_assoc. apply t_run_ext. intros i t5. cbn [abind fst snd]. reflexivity. }
      clear E. rewrite t_run_bind in E'. destruct (t_run (let+ tn := parseTableName in _) t) as [y t1| | |] eqn:E; try discriminate. apply (calm_before n _ _ _ C) in E.
      destruct (negb _); [discriminate|]. unfold scan_ in E'. cbn [abind t_run] in E'. destruct (t_next t1) as [[t2 [|]]|] eqn:EN; try discriminate. injection E' as <- <-. destruct (next_calm _ _ _ E EN) as [C' EA].
      split; [exact C'|]. split; [exact EA|]. cbn [snd]. unfold t_tok. unfold t_next in EN.
      destruct (t_ahead t1) as [|c l]; [destruct (Scan _ _) as [[s c]|]; [|discriminate]|]; injection EN as <-; exists c, (t_past t1); now split.
    Qed.
  End Calm.

  (** ** The tokens of COPY *)

  Definition neat (k : tok) : Prop := match k with KReserved _ | KIdent _ | KRune _ | KString _ => True | _ => False end.
  Lemma neat_plain l : Forall neat l -> Forall plain l.
  Proof. apply Forall_impl. now intros []. Qed.
  Lemma neat_table_name tn ts : table_name tn ts -> Forall neat ts.
  Proof. destruct 1; repeat constructor. Qed.
  Lemma neat_names l ts : names l ts -> Forall neat ts.
  Proof. induction 1; repeat constructor; assumption. Qed.
  Lemma neat_opt_names l ts : opt_names l ts -> Forall neat ts.
  Proof. destruct 1 as [|l ts H]; [constructor|]. constructor; [exact Logic.I|]. apply Forall_app. split; [now apply neat_names in H|repeat constructor]. Qed.

  Definition head_tokens (tn : tablename) (cols : list Z) (ts : list tok) : Prop :=
    exists tt1 tc, ts = tt1 ++ tc ++ [KReserved kFROM; KIdent iSTDIN] /\ table_name tn tt1 /\ opt_names cols tc /\ NoDup cols.
  Lemma neat_head tn cols ts : head_tokens tn cols ts -> Forall neat ts.
  Proof.
    intros (tt1 & tc & -> & H1 & H2 & _). apply Forall_app. split; [now apply neat_table_name in H1|]. apply Forall_app. split; [now apply neat_opt_names in H2|repeat constructor].
  Qed.
  Lemma copy_head tn cols d ts : copy_tokens tn cols d ts <->
    exists th, head_tokens tn cols th /\ ts = KReserved kCOPY :: th ++ match d with Some c => [KReserved kDELIMITER; KString [c]] | None => [] end.
  Proof.
    split.
    - intros [tn0 cols0 tt1 tc H1 H2 H3|tn0 cols0 c tt1 tc H1 H2 H3]; exists (tt1 ++ tc ++ [KReserved kFROM; KIdent iSTDIN]); (split; [now exists tt1, tc|]); rewrite <- ?app_assoc, ?app_nil_r; reflexivity.
    - intros (th & (tt1 & tc & -> & H1 & H2 & H3) & ->). rewrite <- !app_assoc. destruct d; cbn [app]; now constructor.
  Qed.

  Section Lists.
    Variable id : bytes -> Z.
    Variable name : Z -> bytes.
    Lemma l_copyHead n tn cols ts k p a : head_tokens tn cols ts -> (length ts < n)%nat ->
      lrun id name (copyHead n) p (ts ++ k :: a) = Some (tn, cols, k, k :: rev ts ++ p, a).
    Proof.
      intros (tt1 & tc & -> & H1 & H2 & H3) Hn. rewrite !app_length in Hn. unfold copyHead. rewrite <- app_assoc.
      rewrite (reads_tableName id name _ _ H1) by (destruct H2; discriminate). destruct H2 as [|cols tc H2].
      - cbn [app]. steps. cbn [app negb]. rewrite Z.eqb_refl. cbn [negb lrun]. unfold scan_. cbn [abind lrun]. rewrite !rev_app_distr. reflexivity.
      - cbn [app length] in *. rewrite app_length in Hn. steps. rewrite <- !app_assoc. replace (tc ++ [KRune 41] ++ [KReserved kFROM; KIdent iSTDIN] ++ k :: a) with ((tc ++ [KRune tRParen]) ++ [KReserved kFROM; KIdent iSTDIN] ++ k :: a) by (now rewrite <- app_assoc).
        rewrite (reads_distinct id name n cols tc H2 H3) by (exact Logic.I || lia). cbn [app]. steps. rewrite Z.eqb_refl. cbn [negb]. unfold scan_. cbn [abind lrun].
        f_equal. f_equal. repeat (rewrite ?rev_app_distr; cbn [rev app]; rewrite <- ?app_assoc). reflexivity.
    Qed.
    Lemma S_copyHead n p a : clean p -> wpl id name (copyHead n) p a
      (fun x p' a' => let '(tn, cols, k) := x in exists ts, a = ts ++ k :: a' /\ p' = k :: rev ts ++ p /\ head_tokens tn cols ts).
    Proof.
      intros C. unfold copyHead. use_ S_tableName as tn tt1 a1 H1.
      assert (K : forall cols tc p' a', a1 = tc ++ a' -> p' = rev tc ++ rev tt1 ++ p -> clean p' -> opt_names cols tc -> NoDup cols ->
        wpl id name (expectReserved [kFROM] ;+ let+ i := expectIdentifier in if negb (i =? iSTDIN) then AError else let+ t := scan_ in ARet (tn, cols, t)) p' a'
          (fun x p' a' => let '(tn, cols, k) := x in exists ts, tt1 ++ a1 = ts ++ k :: a' /\ p' = k :: rev ts ++ p /\ head_tokens tn cols ts)).
      { intros cols tc p' a' -> -> Hc H2 H3. st. one_of H. st. destruct (Z.eqb_spec i iSTDIN) as [->|]; [|exact Logic.I]. cbn [negb]. st. apply s_ret.
        exists (tt1 ++ tc ++ [KReserved kFROM; KIdent iSTDIN]). split; [now rewrite <- !app_assoc|]. split; [now rewrite !rev_app_distr, <- !app_assoc|]. now exists tt1, tc. }
      st.
      - use_ S_distinct as c tc a2 (tc' & -> & H2 & H3). apply (K c (KRune 40 :: tc' ++ [KRune 41])); [| |assumption| |exact H3].
        + reflexivity.
        + repeat (rewrite ?rev_app_distr; cbn [rev app]; rewrite <- ?app_assoc). reflexivity.
        + now constructor.
      - st. eapply (K [] []); [reflexivity|reflexivity|assumption|constructor|constructor].
    Qed.
  End Lists.

  (** ** Behind the tokens *)

  Definition atTape (past ahead : list sctx) (s : scanner) : tape := {| t_past := past; t_ahead := ahead; t_scanner := s |}.
  Lemma tape_eta t : t = atTape (t_past t) (t_ahead t) (t_scanner t).
  Proof. now destruct t. Qed.

  Lemma end_run s t : t_run (wholeTail s) t =
    match t_next t with
    | Some (t', false) => if over (t_tok t') then Done (Some s) t' else t_run errorGot t'
    | Some (t', true) => Failed t'
    | None => Stuck
    end.
  Proof.
    unfold wholeTail, expectEndOfStatement, scan_. rewrite t_run_assoc. cbn [abind t_run]. destruct (t_next t) as [[t' [|]]|]; try reflexivity.
    rewrite t_run_bind. destruct (t_tok t') as [| |b| | | | | | | |] eqn:EK; cbn [t_run over]; try reflexivity; unfold errorGot; cbn [t_run]; rewrite EK; try destruct b; reflexivity.
  Qed.
  Lemma got_run {A} t (x : A) t' : t_run (@errorGot A) t <> Done x t'.
  Proof. unfold errorGot. cbn [t_run]. destruct (t_tok t) as [| |[|]| | | | | | | |]; discriminate. Qed.

  Lemma plain_tail tn cols c past s : is_reserved (tok_of c) [kDELIMITER] = false ->
    t_run (abind (copyTail (tn, cols, tok_of c)) wholeTail) (atTape (c :: past) [] s) =
    t_run (wholeTail (SCopy tn cols (s_line (RuneReader s)) 9)) (atTape past [c] (RuneReader s)).
  Proof. intros H. rewrite t_run_bind. cbn [copyTail]. rewrite H. reflexivity. Qed.
  Lemma string_tail tn cols k t : is_reserved k [kDELIMITER] = true ->
    t_run (abind (copyTail (tn, cols, k)) wholeTail) t =
    match t_next t with
    | Some (t', false) =>
        match t_tok t' with
        | KString [c] => t_run (wholeTail (SCopy tn cols (s_line (RuneReader (t_scanner t'))) (bz c))) (t_set t' (RuneReader (t_scanner t')))
        | _ => Failed t'
        end
    | Some (t', true) => Failed t'
    | None => Stuck
    end.
  Proof.
    intros H. rewrite t_run_bind. cbn [copyTail]. rewrite H. unfold scan_. cbn [abind t_run]. destruct (t_next t) as [[t' [|]]|]; try reflexivity.
    destruct (t_tok t') as [| | | | |[|c [|? ?]]| | | | |]; reflexivity.
  Qed.

  Lemma reader_unread s : s_unread (RuneReader s) = s_unread s.
  Proof. unfold RuneReader. now destruct (dropLine (s_in s)). Qed.
  Lemma reader_read s : s_read (RuneReader s) = s_read s.
  Proof. unfold RuneReader. now destruct (dropLine (s_in s)). Qed.
  Lemma reader_rest s : s_in s = tl (rest s) -> rest (RuneReader s) = firstn 1 (rest s) ++ s_in (RuneReader s).
  Proof.
    intros H. unfold rest at 1. rewrite reader_unread, reader_read. f_equal. unfold rest in *. destruct (s_unread s); [|].
    - destruct (s_read s <? 0); [|reflexivity]. cbn [app] in *. destruct (s_in s) as [|x l]; [reflexivity|]. exfalso. apply (f_equal (@length Z)) in H. cbn in H. lia.
    - cbn [app] in *. destruct (s_in s) as [|x l]; [reflexivity|]. exfalso. apply (f_equal (@length Z)) in H. cbn in H. lia.
  Qed.

  (** Scanning what ends a statement. *)
  Lemma scan_end input s c s' c' : scanning input s -> Scan s c = Some (s', c') -> over (tok_of c') = true -> statement_text (rest s) [] (rest s').
  Proof.
    intros HS ES O. destruct (LemmasScanProps.sound HU _ _ _ _ _ HS ES) as [(T1 & I1 & g & e & ER & G & NT)|[(T3 & I1 & _)|(g & w & f & v & ER & G & Hx & Hh)]].
    - destruct (dropped HU _ _ c _ _ HS ER G NT) as (s2 & ES2 & R2 & _). rewrite ES in ES2. injection ES2 as <- _. rewrite R2, ER. eapply stx_eof; [constructor|exact G|exact NT].
    - unfold tok_of in O. rewrite T3 in O. discriminate.
    - rewrite ER. apply stx_end. cbn [app]. destruct v as [|n q|b|b|i|p|i|r]; cbn [holds] in Hh; try (exfalso; revert O; unfold tok_of; destruct Hh as (-> & _); discriminate).
      + econstructor; [exact G|exact Hx|constructor].
      + exfalso. revert O. unfold tok_of. destruct Hh as (_ & _ & ->). destruct (negb q && _); discriminate.
      + exfalso. revert O. destruct Hh as [Hr _]. unfold tok_of. rewrite Hr. clear Hr.
        inversion Hx; subst; match goal with H : In _ _ |- _ => cbn in H; repeat destruct H as [H|H]; try contradiction; try (injection H; intros; subst); subst; discriminate | H : op_alone _ _ |- _ => destruct H as [H _]; cbn in H; repeat destruct H as [H|H]; try contradiction; subst; discriminate end.
  Qed.
  Lemma end_scan input s c left : scanning input s -> statement_text (rest s) [] left ->
    exists s' c', Scan s c = Some (s', c') /\ over (tok_of c') = true /\ rest s' = left /\ s_ids s' = s_ids s.
  Proof.
    intros HS H. remember (rest s) as text eqn:ET. remember (@nil tokval) as vs eqn:EV. destruct H as [text vs l K|text vs g e K G N]; subst vs.
    - cbn [app] in K. remember [TEnd] as vs eqn:EV. destruct K as [l|g w v f l vs l' G Hx K']; [discriminate|]. injection EV as -> ->. inversion K'; subst l'. destruct (complete HU _ _ c _ _ _ _ _ HS (eq_sym ET) G Hx) as (s' & c' & ES & R & Hh).
      exists s', c'. split; [exact ES|]. cbn [holds] in Hh. destruct Hh as [Ht Hi]. split; [unfold tok_of; now rewrite Ht|]. split; [now subst|exact Hi].
    - assert (E : text = g ++ e) by (now inversion K). rewrite E in ET. destruct (dropped HU _ _ c _ _ HS (eq_sym ET) G N) as (s' & ES & R & I). exists s', (set_token c (-1)). split; [exact ES|]. split; [reflexivity|]. now split.
  Qed.
  Lemma over_good c : over (tok_of c) = true -> match tok_of c with KError true => true | _ => false end = false.
  Proof. now destruct (tok_of c). Qed.

  Lemma scans_tokens T text vs new left : scans T text vs new left -> Forall neat new -> tokens text vs left /\ Forall2 (token_in T) vs new.
  Proof.
    induction 1 as [l|g w v f l k0 vs new left G Hx Hk H IH|g e vs new left G N H IH|l l' b vs new left H IH]; intros F; inversion F as [|? ? F1 F2]; subst; try contradiction.
    - split; constructor.
    - destruct (IH F2) as [I1 I2]. split; [econstructor; eassumption|]. constructor; [|exact I2]. destruct Hk; [assumption|contradiction].
  Qed.
  Lemma read_in T vs ts : Forall neat ts -> Forall2 (token_read T) vs ts -> Forall2 (token_in T) vs ts.
  Proof. intros F H. revert F. induction H as [|v k vs ts Hk H IH]; intros F; inversion F as [|? ? F1 F2]; subst; constructor; [destruct Hk; [assumption|contradiction]|now apply IH]. Qed.

  (** ** Only such texts *)

  Definition firstWord {A} (g : act A) : act A := AScan (fun k => match k with KReserved i => if i =? kCOPY then g else AError | _ => AError end).

  Lemma deref_copy b s tn cols line d : SCopy tn cols line d = deref_stmt b s -> s = SCopy tn cols line d.
  Proof. destruct s; cbn; try discriminate. congruence. Qed.

  Lemma word_copy n c past s1 s t' : t_run (parseWhole n) {| t_past := past; t_ahead := [c]; t_scanner := s1 |} = Done (Some s) t' ->
    tok_of c = KReserved kCOPY \/ t_run (parseOne n) {| t_past := past; t_ahead := [c]; t_scanner := s1 |} = Done (Some s) t'.
  Proof.
    unfold parseWhole, parseStmt, parseOne. rewrite t_run_assoc, !t_run_bind.
    assert (EM : t_run (maybeToken tEndOfStatement) {| t_past := past; t_ahead := [c]; t_scanner := s1 |} =
      if rune_of (tok_of c) =? tEndOfStatement then Done true {| t_past := c :: past; t_ahead := []; t_scanner := s1 |} else Done false {| t_past := past; t_ahead := [c]; t_scanner := s1 |}).
    { unfold maybeToken, scan_, unscan_. cbn [abind t_run]. unfold t_next, t_tok. cbn [t_ahead t_past t_scanner hd]. destruct (_ =? tEndOfStatement); reflexivity. }
    rewrite EM. clear EM. destruct (_ =? tEndOfStatement).
    { cbn [abind t_run]. rewrite t_run_bind. destruct (t_run expectEndOfStatement _); cbn [t_run]; discriminate. }
    rewrite t_run_assoc, !t_run_bind.
    assert (EX : t_run (expectReserved stmtKeywords) {| t_past := past; t_ahead := [c]; t_scanner := s1 |} =
      if is_reserved (tok_of c) stmtKeywords then Done (ident_of (tok_of c)) {| t_past := c :: past; t_ahead := []; t_scanner := s1 |} else t_run errorGot {| t_past := c :: past; t_ahead := []; t_scanner := s1 |}).
    { unfold expectReserved, scan_. cbn [abind t_run]. unfold t_next. cbn [t_ahead t_past t_scanner]. change (t_tok {| t_past := c :: past; t_ahead := []; t_scanner := s1 |}) with (tok_of c). destruct (is_reserved (tok_of c) stmtKeywords); reflexivity. }
    rewrite EX. clear EX. destruct (is_reserved (tok_of c) stmtKeywords) eqn:ER.
    - destruct (tok_of c) as [| | |i|k|b|b|z|f|z|r]; try discriminate ER. cbn [ident_of]. destruct (Z.eqb_spec k kCOPY) as [->|N]; [now left|]. intros E. right. rewrite !t_run_bind. rewrite t_run_bind in E. exact E.
    - destruct (t_run errorGot _) as [x t1|t1|t1|] eqn:EG; try discriminate. now apply got_run in EG.
  Qed.

  Lemma copy_sound_in input p tn cols line d p' : parsing input p -> p_unscanned p = 0%nat -> p_failed p = false -> real (s_ids (p_scanner p)) ->
    Parse p = PStmt (Some (SCopy tn cols line d)) p' ->
    exists vs b data before, copy_text (rest (p_scanner p)) vs (given b) data (rest (p_scanner p')) /\ text_copies (s_ids (p_scanner p')) vs tn cols b /\
      d = delimiter b /\ input = before ++ data /\ line = line_behind before /\ p_unscanned p' = 0%nat /\ s_unread (p_scanner p') = false.
  Proof.
    intros HPs Hu Hf R EP. destruct (parsing_in_step HU _ _ HPs) as [t HS]. pose proof (parse_same HU _ _ _ HS) as SM. rewrite EP, Hf in SM.
    pose proof HS as ((O1 & O2 & O3 & _) & S1 & _). rewrite O1 in R |- *. rewrite O2 in Hu. apply length_zero_iff_nil in Hu.
    destruct (t_parse false t) as [so tt| | | | |] eqn:ET; try contradiction. destruct SM as (ES & HS' & _).
    destruct so as [s0|]; [|discriminate]. cbn [option_map] in ES. injection ES as ES. apply deref_copy in ES. subst s0.
    unfold t_parse in ET. destruct (t_next t) as [[t1 [|]]|] eqn:EN; try discriminate.
    assert (ER : exists n t2, t_back t1 = Some t2 /\ t_run (parseWhole n) t2 = Done (Some (SCopy tn cols line d)) tt).
    { destruct (t_tok t1) eqn:EK; try discriminate; (destruct (t_back t1) as [t2|] eqn:EB; [|discriminate]; destruct (t_run (parseWhole (t_fuel t2)) t2) as [x t3|t3|t3|] eqn:ER; try discriminate;
        injection ET as -> ->; exists (t_fuel t2), t2; now split). }
    clear ET. destruct ER as (n & t2 & EB & ER).
    pose proof EN as EN'. unfold t_next in EN'. rewrite Hu in EN'. destruct (Scan (t_scanner t) _) as [[s1 c]|] eqn:ESc; [|discriminate]. injection EN' as <- EE.
    unfold t_back in EB. cbn [t_past t_ahead t_scanner] in EB. injection EB as <-.
    pose proof (sc_scan _ _ _ _ _ S1 ESc) as S1'. pose proof (Scan_grown HU _ _ _ _ _ S1 R ESc) as GS.
    destruct (word_copy n c (t_past t) s1 _ _ ER) as [EC|EC].
    2:{ exfalso. assert (E1 : t_run (AScan (fun _ => AUnscan (parseOne n))) t = Done (Some (SCopy tn cols line d)) tt) by (cbn [t_run]; rewrite EN; exact EC).
        destruct (one_sound HU input n _ t tt S1 R Hu E1) as (_ & vs & ts & _ & _ & K). inversion K; match goal with H : a_select _ _ (SCopy _ _ _ _) _ |- _ => inversion H | H : a_show (SCopy _ _ _ _) _ |- _ => inversion H | H : a_show _ _ (SCopy _ _ _ _) _ |- _ => inversion H end; match goal with H : show _ _ (SCopy _ _ _ _) _ |- _ => inversion H end. }
    pose proof ER as ER0. rewrite (whole_copy n {| t_past := t_past t; t_ahead := [c]; t_scanner := s1 |} c eq_refl EC) in ER. cbn [t_past t_ahead t_scanner] in ER. fold (atTape (c :: t_past t) [] s1) in ER. rewrite t_run_bind in ER.
    assert (C0 : calm_state input (atTape (c :: t_past t) [] s1)).
    { split; [exact S1'|]. split; [cbn; lia|]. unfold seen. cbn [atTape t_ahead t_past t_scanner rev app]. exact (Scan_shows _ _ _ _ _ S1 ESc). }
    destruct (t_run (copyHead n) (atTape (c :: t_past t) [] s1)) as [[[tn0 cols0] k] t3|t3|t3|] eqn:EH; try discriminate.
    destruct (head_calm input n _ _ _ C0 EH) as (C3 & EA3 & ck & past3 & EP3 & EK). cbn [snd] in EK. subst k.
    set (T := s_ids (t_scanner tt)) in *.
    assert (R3 : real (s_ids (t_scanner t3))) by (pose proof (run_grown HU input (copyHead n) _ (proj1 C0) (proj1 GS)) as K; rewrite EH in K; exact (proj1 K)).
    assert (G3 : grown (s_ids (t_scanner t3)) T) by (pose proof (run_grown HU input (abind (copyTail (tn0, cols0, tok_of ck)) wholeTail) t3 (proj1 C3) R3) as K; rewrite ER in K; exact K).
    pose proof HS' as ((O1' & O2' & _) & S1T & _). rewrite O1', O2'.
    destruct (is_reserved (tok_of ck) [kDELIMITER]) eqn:ED.
    - (* a delimiter *) rewrite string_tail in ER by exact ED. destruct (t_next t3) as [[t4 [|]]|] eqn:EN4; try discriminate.
      destruct (next_calm input _ _ _ C3 EN4) as [C4 EA4]. destruct (t_tok t4) as [| | | | |[|cs [|? ?]]| | | | |] eqn:EK4; try discriminate.
      rewrite end_run in ER. destruct (t_next (t_set t4 (RuneReader (t_scanner t4)))) as [[t5 [|]]|] eqn:EN5; try discriminate.
      destruct (over (t_tok t5)) eqn:EO; [|now apply got_run in ER]. injection ER as -> -> EL EDl ->.
      assert (G4 : grown (s_ids (t_scanner t4)) T).
      { unfold t_next in EN5. cbn [t_set t_ahead t_past t_scanner] in EN5. rewrite EA4 in EN5. destruct (Scan (RuneReader (t_scanner t4)) _) as [[s5 c5]|] eqn:ES5; [|discriminate]. injection EN5 as <- _. unfold T. cbn [t_scanner].
        assert (R4 : real (s_ids (t_scanner t4))).
        { pose proof (run_grown HU input scan_ t3 (proj1 C3) R3) as K. unfold scan_ in K. cbn [t_run] in K. rewrite EN4 in K. exact (proj1 K). }
        rewrite <- (reader_ids (t_scanner t4)). apply (Scan_grown HU _ _ _ _ _ (sc_reader _ _ (proj1 C4))  ltac:(rewrite reader_ids; exact R4) ES5). }
      destruct (follow HU input T (t_past t) (firstWord (abind (copyHead n) (fun x => if is_reserved (snd x) [kDELIMITER] then let+ k := scan_ in ARet (x, k) else AError))) t []
        (fun fut x p' a' => exists ts, fut = ts ++ a' /\ p' = rev ts /\ exists th, ts = KReserved kCOPY :: th ++ [KReserved kDELIMITER; snd x] /\ head_tokens (fst (fst (fst x))) (snd (fst (fst x))) th)
        (tn, cols, tok_of ck, KString [cs]) t4) as (vs & new & pc' & H1 & H2 & H3 & (ts & E1 & E2 & th & E3 & E4)).
      + reflexivity.
      + exact S1.
      + exact R.
      + rewrite Hu. constructor.
      + rewrite Hu. constructor.
      + intros fut. rewrite Hu. cbn [map app]. split; [exact Logic.I|]. destruct fut as [|k0 fut]; [exact Logic.I|]. intros HP0. destruct k0 as [| | | |i| | | | | |]; try exact Logic.I. destruct (Z.eqb_spec i kCOPY) as [->|]; [|exact Logic.I].
        apply wpl_bind. eapply wpl_mono; [|apply (S_copyHead (number T) (idString T) n); reflexivity]. intros [[tn1 cols1] k1] p1 a1 (th & -> & -> & Hh). cbn [fst snd].
        destruct k1 as [| | | |i| | | | | |]; try exact Logic.I. destruct (is_reserved (KReserved i) [kDELIMITER]) eqn:Ei; [|exact Logic.I]. cbn in Ei. rewrite orb_false_r in Ei. apply Z.eqb_eq in Ei. subst i.
        split; [reflexivity|]. destruct a1 as [|k2 a1]; [exact Logic.I|]. intros _. cbn [abind wpl]. exists (KReserved kCOPY :: th ++ [KReserved kDELIMITER; k2]). cbn [app rev snd fst]. rewrite <- app_assoc. cbn [app]. split; [reflexivity|].
        split; [rewrite rev_app_distr; cbn [rev app]; reflexivity|]. now exists th.
      + unfold firstWord. cbn [t_run]. rewrite EN. unfold t_tok. cbn [t_past hd]. rewrite EC. cbn [Z.eqb Pos.eqb]. fold (atTape (c :: t_past t) [] s1). rewrite t_run_bind, EH. cbn [snd]. rewrite ED. unfold scan_. cbn [abind t_run]. rewrite EN4, EK4. reflexivity.
      + exact G4.
      + cbn [fst snd] in *. rewrite EA4 in E1. cbn [map] in E1. rewrite app_nil_r in E1. subst new.
        assert (NE : Forall neat ts) by (rewrite E3; constructor; [exact Logic.I|]; apply Forall_app; split; [now apply neat_head in E4|repeat constructor]).
        destruct (scans_tokens T _ _ _ _ H1 NE) as [K1 K2].
        assert (SI : s_in (t_scanner t4) = tl (rest (t_scanner t4))).
        { destruct C4 as (_ & _ & C4). unfold seen in C4. rewrite EA4 in C4. cbn [rev app] in C4. unfold t_tok in EK4. destruct (t_past t4) as [|c4 l4]; [discriminate EK4|]. cbn [hd] in EK4. unfold shows in C4. now rewrite EK4 in C4. }
        destruct (scanning_lined input _ (sc_reader _ _ (proj1 C4))) as (before & B1 & B2 & _).
        exists vs, (Some cs), (s_in (RuneReader (t_scanner t4))), before. split; [|split; [|split; [|split; [|split; [|split]]]]].
        * eapply cx_delimiter; [exact K1|rewrite <- SI; apply reader_behind|]. rewrite <- reader_rest by exact SI. unfold t_next in EN5. cbn [t_set t_ahead t_past t_scanner] in EN5. rewrite EA4 in EN5.
          destruct (Scan (RuneReader (t_scanner t4)) _) as [[s5 c5]|] eqn:ES5; [|discriminate]. injection EN5 as <- _. cbn [t_scanner]. eapply scan_end; [exact (sc_reader _ _ (proj1 C4))|exact ES5|exact EO].
        * exists ts. split; [exact K2|]. apply copy_head. exists th. split; [exact E4|]. rewrite E3. reflexivity.
        * symmetry. exact EDl.
        * exact B1.
        * rewrite <- EL. exact B2.
        * unfold t_next in EN5. cbn [t_set t_ahead t_past t_scanner] in EN5. rewrite EA4 in EN5. destruct (Scan (RuneReader (t_scanner t4)) _) as [[s5 c5]|]; [|discriminate]. now injection EN5 as <- _.
        * unfold t_next in EN5. cbn [t_set t_ahead t_past t_scanner] in EN5. rewrite EA4 in EN5. destruct (Scan (RuneReader (t_scanner t4)) _) as [[s5 c5]|] eqn:ES5; [|discriminate]. injection EN5 as <- _. cbn [t_scanner].
          pose proof (Scan_shows _ _ _ _ _ (sc_reader _ _ (proj1 C4)) ES5) as K. unfold t_tok in EO. cbn [t_past hd] in EO. unfold shows in K. destruct (tok_of c5); try discriminate EO; exact K.
    - (* none *) rewrite (tape_eta t3), EA3, EP3 in ER. rewrite plain_tail in ER by exact ED. rewrite end_run in ER. unfold t_next in ER. cbn [atTape t_ahead t_past t_scanner] in ER. unfold t_tok in ER. cbn [t_past hd] in ER.
      destruct (over (tok_of ck)) eqn:EO; [|now apply got_run in ER]. injection ER as -> -> EL EDl ETT.
      destruct (follow HU input T (t_past t) (firstWord (copyHead n)) t []
        (fun fut x p' a' => let '(tn, cols, k) := x in exists th, fut = KReserved kCOPY :: th ++ k :: a' /\ p' = k :: rev th ++ [KReserved kCOPY] /\ head_tokens tn cols th)
        (tn, cols, tok_of ck) t3) as (vs & new & pc' & H1 & H2 & H3 & (th & E1 & E2 & E4)).
      + reflexivity.
      + exact S1.
      + exact R.
      + rewrite Hu. constructor.
      + rewrite Hu. constructor.
      + intros fut. rewrite Hu. cbn [map app]. split; [exact Logic.I|]. destruct fut as [|k0 fut]; [exact Logic.I|]. intros HP0. destruct k0 as [| | | |i| | | | | |]; try exact Logic.I. destruct (Z.eqb_spec i kCOPY) as [->|]; [|exact Logic.I].
        eapply wpl_mono; [|apply (S_copyHead (number T) (idString T) n); reflexivity]. intros [[tn1 cols1] k1] p1 a1 (th & -> & -> & Hh). exists th. now split.
      + unfold firstWord. cbn [t_run]. rewrite EN. unfold t_tok. cbn [t_past hd]. rewrite EC. cbn [Z.eqb Pos.eqb]. fold (atTape (c :: t_past t) [] s1). exact EH.
      + exact G3.
      + rewrite EA3 in E1. cbn [map] in E1.
        assert (NE : Forall neat (KReserved kCOPY :: th)) by (constructor; [exact Logic.I|now apply neat_head in E4]).
        destruct (scans_text T _ _ _ _ (KReserved kCOPY :: th) (tok_of ck) H1 E1 (neat_plain _ NE) EO) as (vs' & K1 & K2). apply (read_in _ _ _ NE) in K2.
        assert (SU : s_unread (t_scanner t3) = false).
        { destruct C3 as (_ & _ & C3). unfold seen in C3. rewrite EA3, EP3 in C3. cbn [rev app] in C3. unfold shows in C3. destruct (tok_of ck); try discriminate EO; exact C3. }
        destruct (scanning_lined input _ (sc_reader _ _ (proj1 C3))) as (before & B1 & B2 & _).
        assert (RR : rest (RuneReader (t_scanner t3)) = s_in (RuneReader (t_scanner t3))) by (apply LemmasPosition.rest_in; rewrite reader_unread; exact SU).
        assert (RT : t_scanner tt = RuneReader (t_scanner t3)) by (rewrite <- ETT; reflexivity).
        exists vs', None, (s_in (RuneReader (t_scanner t3))), before. split; [|split; [|split; [|split; [|split; [|split]]]]].
        * rewrite RT, RR. apply (cx_plain _ _ _ _ K1). rewrite LemmasPosition.rest_in by exact SU. apply reader_behind.
        * exists (KReserved kCOPY :: th). split; [exact K2|]. apply copy_head. exists th. split; [exact E4|]. now rewrite app_nil_r.
        * symmetry. exact EDl.
        * exact B1.
        * rewrite <- EL. exact B2.
        * now rewrite <- ETT.
        * rewrite RT, reader_unread. exact SU.
  Qed.

  Lemma copy_sound input p tn cols line d p' : parsing input p -> p_unscanned p = 0%nat -> p_failed p = false -> real (s_ids (p_scanner p)) ->
    Parse p = PStmt (Some (SCopy tn cols line d)) p' ->
    exists vs b data before, copy_text (rest (p_scanner p)) vs (given b) data (rest (p_scanner p')) /\ text_copies (s_ids (p_scanner p')) vs tn cols b /\
      d = delimiter b /\ input = before ++ data /\ line = line_behind before /\ p_unscanned p' = 0%nat.
  Proof. intros H1 H2 H3 H4 H5. destruct (copy_sound_in _ _ _ _ _ _ _ H1 H2 H3 H4 H5) as (vs & b & data & before & K). exists vs, b, data, before. tauto. Qed.

  Lemma data_runes p : forall u v, s_unread (p_scanner p) = false -> s_in (p_scanner p) = u ++ v ->
    exists q, data_read p u q /\ s_in (p_scanner q) = v /\ s_unread (p_scanner q) = false /\ s_ids (p_scanner q) = s_ids (p_scanner p) /\ p_unscanned q = p_unscanned p /\ p_failed q = p_failed p.
  Proof.
    intros u. revert p. induction u as [|r u IH]; intros p v N E.
    - exists p. split; [constructor|]. auto.
    - destruct (runeReaderReadRune (p_scanner p)) as [o s'] eqn:ER. pose proof ER as ER'. unfold runeReaderReadRune in ER. rewrite E in ER. cbn [app] in ER. injection ER as <- ES.
      destruct (IH (set_scanner p s') v) as (q & Q1 & Q2 & Q3 & Q4 & Q5 & Q6); [| |exists q; split; [econstructor; [exact ER'|exact Q1]|subst s'; auto]]; subst s'; [exact N|reflexivity].
  Qed.
  Lemma copy_data input p tn cols line d p' u v : parsing input p -> p_unscanned p = 0%nat -> p_failed p = false -> real (s_ids (p_scanner p)) ->
    Parse p = PStmt (Some (SCopy tn cols line d)) p' -> rest (p_scanner p') = u ++ v ->
    exists q, data_read p' u q /\ rest (p_scanner q) = v /\ s_ids (p_scanner q) = s_ids (p_scanner p') /\ p_unscanned q = 0%nat /\
      (v = [] -> fst (runeReaderReadRune (p_scanner q)) = None).
  Proof.
    intros H1 H2 H3 H4 H5 E. destruct (copy_sound_in _ _ _ _ _ _ _ H1 H2 H3 H4 H5) as (_ & _ & _ & _ & _ & _ & _ & _ & _ & K1 & K2).
    destruct (data_runes p' u v K2 ltac:(rewrite <- E; symmetry; now apply LemmasPosition.rest_in)) as (q & Q1 & Q2 & Q3 & Q4 & Q5 & Q6). exists q. split; [exact Q1|].
    split; [rewrite LemmasPosition.rest_in by exact Q3; exact Q2|]. split; [exact Q4|]. split; [now rewrite Q5|]. intros ->. unfold runeReaderReadRune. now rewrite Q2.
  Qed.

  (** ** All such texts *)

  Lemma ends_bind {A D} input T (g : act A) (h : A -> act D) t : scanning input (t_scanner t) -> real (s_ids (t_scanner t)) ->
    (forall x t', t_run g t = Done x t' -> scanning input (t_scanner t')) -> ends T (t_run (abind g h) t) -> ends T (t_run g t).
  Proof.
    intros S1 R S2 E. rewrite t_run_bind in E. pose proof (run_grown HU input g t S1 R) as K. destruct (t_run g t) as [x t'|t'|t'|]; try exact E.
    exact (ends_grown HU input T (h x) t' (S2 _ _ eq_refl) (proj1 K) E).
  Qed.

  Lemma first_copied text vs b data left : copy_text text vs b data left -> vs = [] \/
    exists g w v f l vs', text = g ++ w ++ f /\ vs = v :: vs' /\ gap g /\ lexeme w v f l.
  Proof.
    intros [t v l d H _|t v l d left0 H _ _]; [now apply first_token in H|]. destruct H as [|g w v0 f l0 vs0 l1 G Hx H]; [now left|right]. do 6 eexists. eauto.
  Qed.

  Lemma copied_unread T text vs b data left ts th d : copy_text text vs b data left -> given d = b -> Forall2 (token_in T) vs ts ->
    ts = KReserved kCOPY :: th ++ match d with Some c => [KReserved kDELIMITER; KString [c]] | None => [] end ->
    exists k more l vs2, unread T l text vs2 (KReserved kCOPY :: th ++ k :: more) /\ (forall n q, In (TName n q) vs <-> In (TName n q) vs2) /\
      match d with
      | None => over k = true /\ more = [] /\ behind_line l data /\ left = data
      | Some c => k = KReserved kDELIMITER /\ more = [KString [c]] /\ behind_line (tl l) data /\ statement_text (firstn 1 l ++ data) [] left
      end.
  Proof.
    intros [t v l dt H1 H2|t v l dt left0 H1 H2 H3] ED F ET; destruct d as [c|]; try discriminate; subst ts.
    - rewrite app_nil_r in F. destruct (statement_unread T _ _ _ _ H1 F) as (k & vs2 & Hk & UN & IV). exists k, [], l, vs2. split; [exact UN|]. split; [exact IV|]. split; [destruct Hk; now subst|]. now split.
    - exists (KReserved kDELIMITER), [KString [c]], l, v. split; [|split; [reflexivity|now split]].
      pose proof (tokens_unread T l _ _ _ [] [] H1 (un_none T l) _ F) as K. now rewrite !app_nil_r in K.
  Qed.

  Lemma copy_text_step input p t vs b data left : in_step input p t -> p_unscanned p = 0%nat -> p_failed p = false -> real (s_ids (p_scanner p)) ->
    copy_text (rest (p_scanner p)) vs b data left ->
    exists T, real T /\ later (s_ids (p_scanner p)) T /\ (forall n q, In (TName n q) vs -> knows T n q) /\
      forall tn cols d, text_copies T vs tn cols d -> given d = b ->
      exists p' before, Parse p = PStmt (Some (SCopy tn cols (line_behind before) (delimiter d))) p' /\ input = before ++ data /\
        s_ids (p_scanner p') = T /\ rest (p_scanner p') = left /\ p_unscanned p' = 0%nat /\ p_failed p' = false.
  Proof.
    intros HS Hu Hf R ST. pose proof (parse_same HU _ _ _ HS) as SM. pose proof HS as ((O1 & O2 & O3 & _) & S1 & _).
    rewrite O1 in *. rewrite O2 in Hu. apply length_zero_iff_nil in Hu. rewrite Hf in SM.
    destruct (first_copied _ _ _ _ _ ST) as [->|(g & w & v & f & l0 & vs' & ET & -> & G & Hx)].
    { exists (s_ids (t_scanner t)). split; [exact R|]. split; [apply grown_later; [exact R|now apply grown_refl]|]. split; [now intros|].
      intros tn cols d (ts & F & Sy). inversion F; subst. inversion Sy. }
    destruct (complete HU _ _ (nth 2 (t_past t) c_zero) _ _ _ _ _ S1 ET G Hx) as (s1 & c & ES & R1 & Hh). destruct (not_error _ _ _ _ _ _ _ Hx Hh) as [NEOF NE].
    set (t1 := {| t_past := t_past t; t_ahead := [c]; t_scanner := s1 |}).
    assert (EP : t_parse false t = match t_run (parseWhole (t_fuel t1)) t1 with
                    | Done s t => TStmt s t | Failed t => TFailed t | Crashed t => TCrash t | Stuck => TStuck end).
    { unfold t_parse, t_next. rewrite Hu, ES. destruct (match tok_of c with KError true => true | _ => false end) eqn:EE.
      { destruct (tok_of c) as [| |[|]| | | | | | | |]; try discriminate. now contradiction (NE true). }
      unfold t_tok. cbn [t_past hd t_back t_ahead t_scanner]. fold t1. destruct (tok_of c); [contradiction|reflexivity..]. }
    rewrite EP in SM. clear EP. pose proof (Scan_grown HU _ _ _ _ _ S1 R ES) as GS. pose proof (sc_scan _ _ _ _ _ S1 ES) as S1'.
    pose proof (run_grown HU input (parseWhole (t_fuel t1)) t1 S1' (proj1 GS)) as RG.
    assert (HO : exists T0, grown (s_ids s1) T0 /\ (forall T, grown T0 T -> ends T (t_run (parseWhole (t_fuel t1)) t1)) /\
        forall o t', t_run (parseWhole (t_fuel t1)) t1 = Done o t' -> T0 = s_ids (t_scanner t')).
    { destruct (t_run (parseWhole (t_fuel t1)) t1) as [o t'|t'|t'|].
      - exists (s_ids (t_scanner t')). split; [exact RG|]. split; [intros T H; exact H|]. now intros o' t'' [= <- <-].
      - exists (s_ids (t_scanner t')). split; [exact RG|]. split; [intros T H; exact H|discriminate].
      - exists (s_ids (t_scanner t')). split; [exact RG|]. split; [intros T H; exact H|discriminate].
      - destruct (Parse p); contradiction. }
    destruct HO as (T0 & G0 & HE & HD). destruct (register_spec (v :: vs') T0 (proj1 G0)) as [GR KR]. set (T := register (v :: vs') T0) in *.
    assert (GT : grown (s_ids s1) T) by (eapply grown_trans; eassumption). specialize (HE T GR).
    exists T. split; [apply GR|]. split; [apply grown_later; [exact R|eapply grown_trans; eassumption]|]. split; [exact KR|].
    intros tn cols d (ts & F & Sy) EDb. apply copy_head in Sy. destruct Sy as (th & Hth & ETs).
    destruct (copied_unread T _ _ _ _ _ _ th d ST EDb F ETs) as (k & more & l & vs2 & UN & IV & HM).
    remember (rest (t_scanner t)) as text eqn:EQ0. remember (KReserved kCOPY :: th ++ k :: more) as full eqn:EF. destruct UN as [|g' w' v' f' l' k' vs'' ts' G' Hx' Hk' Hu'|g' e' G' N' Hl'].
    { discriminate. }
    2:{ discriminate. }
    injection EF as -> ->.
    destruct (complete HU _ _ (nth 2 (t_past t) c_zero) _ _ _ _ _ S1 (eq_sym EQ0) G' Hx') as (s2 & c2 & ES2 & R2 & Hh2). rewrite ES in ES2. injection ES2 as <- <-.
    destruct (token_held T _ _ _ _ _ _ _ _ R Hx' Hh2 GT Hk') as [HK HN].
    set (n := t_fuel t1) in *. set (t2 := atTape (c :: t_past t) [] s1).
    assert (EW : t_run (parseWhole n) t1 = t_run (abind (copyHead n) (fun x => abind (copyTail x) wholeTail)) t2) by (exact (whole_copy n t1 c eq_refl HK)).
    rewrite EW in *. clear EW.
    assert (C2 : calm_state input t2).
    { split; [exact S1'|]. split; [cbn; lia|]. unfold seen. cbn [t2 atTape t_ahead t_past t_scanner rev app]. exact (Scan_shows _ _ _ _ _ S1 ES). }
    destruct (lockstep HU input T (v' :: vs'') l (t_past t) (copyHead n) [KReserved kCOPY] (th ++ k :: more) t2 (tn, cols, k) (k :: rev th ++ [KReserved kCOPY]) more) as (t3 & EH & LK3).
    - exists [c], vs'', (th ++ k :: more). constructor; cbn [t2 atTape t_past t_ahead t_scanner map app].
      + reflexivity.
      + now rewrite HK.
      + reflexivity.
      + now rewrite R2.
      + exact S1'.
      + apply GS.
      + constructor; [exact HN|constructor].
      + intros m q [->|H]; [left|now right]. cbn [holds] in Hh2. destruct Hh2 as (_ & -> & _). now apply ID_knows.
    - eapply (ends_bind input T _ _ t2 S1' (proj1 GS)); [|exact HE]. intros x t' E. exact (proj1 (proj1 (head_calm input n _ _ _ C2 E))).
    - apply l_copyHead; [exact Hth|]. apply unread_length in Hu'. rewrite app_length in Hu'. cbn [length] in *. pose proof (LemmasScanAll.rest_length s1) as RL. rewrite R2 in RL. unfold n, t_fuel. cbn [t1 t_scanner t_ahead length]. lia.
    - destruct (head_calm input n _ _ _ C2 EH) as (C3 & EA3 & ck & past3 & EP3 & EK). cbn [snd] in EK.
      assert (EB : forall (D : Type) (h : _ -> act D), t_run (abind (copyHead n) h) t2 = t_run (h (tn, cols, k)) t3) by (intros; now rewrite t_run_bind, EH).
      rewrite EB in HE, HD, SM. clear EB.
      destruct d as [cd|].
      + (* a delimiter *) destruct HM as (-> & -> & HB & HL).
        assert (EK1 : is_reserved (KReserved kDELIMITER) [kDELIMITER] = true) by reflexivity.
        destruct LK3 as (pc3 & vs3 & ts3 & LK3). pose proof (lk_real _ _ _ _ _ _ _ _ _ _ _ LK3) as R3.
        destruct (lockstep HU input T (v' :: vs'') l (t_past t) scan_ (KReserved kDELIMITER :: rev th ++ [KReserved kCOPY]) [KString [cd]] t3 (KString [cd]) (KString [cd] :: KReserved kDELIMITER :: rev th ++ [KReserved kCOPY]) []) as (t4 & EN4 & (pc4 & vs4 & ts4 & LK4)).
        * now exists pc3, vs3, ts3.
        * cbn [copyTail] in HE. rewrite EK1, t_run_assoc in HE. eapply (ends_bind input T _ _ t3 (proj1 C3) R3); [|exact HE]. intros x t' E. unfold scan_ in E. cbn [t_run] in E. destruct (t_next t3) as [[t5 [|]]|] eqn:EN; try discriminate. injection E as _ <-. exact (proj1 (proj1 (next_calm input _ _ _ C3 EN))).
        * reflexivity.
        * unfold scan_ in EN4. cbn [t_run] in EN4. destruct (t_next t3) as [[t5 [|]]|] eqn:EN; try discriminate. injection EN4 as EK4 <-. destruct (next_calm input _ _ _ C3 EN) as [C4 EA4].
          rewrite string_tail, EN, EK4 in HD, SM by exact EK1. destruct LK4 as [_ _ L3 L4 _ L6 _ L8]. rewrite EA4 in L3. cbn [map app] in L3. subst ts4.
          assert (RL : rest (t_scanner t5) = l) by (now inversion L4). assert (EV4 : vs4 = []) by (now inversion L4). subst vs4.
          assert (SI : s_in (t_scanner t5) = tl (rest (t_scanner t5))).
          { destruct C4 as (_ & _ & C4). unfold seen in C4. rewrite EA4 in C4. cbn [rev app] in C4. unfold t_tok in EK4. destruct (t_past t5) as [|c4 l4]; [discriminate EK4|]. cbn [hd] in EK4. unfold shows in C4. now rewrite EK4 in C4. }
          assert (DA : s_in (RuneReader (t_scanner t5)) = data) by (eapply behind_fun; [apply reader_behind|]; rewrite SI, RL; exact HB).
          pose proof (reader_rest _ SI) as RR. rewrite RL, DA in RR. rewrite <- RR in HL.
          destruct (end_scan input _ (nth 2 (t_past t5) c_zero) left (sc_reader _ _ (proj1 C4)) HL) as (s6 & c6 & ES6 & O6 & R6 & I6).
          rewrite end_run in HD, SM. unfold t_next in HD, SM. cbn [t_set t_ahead t_past t_scanner] in HD, SM. rewrite EA4, ES6 in HD, SM. rewrite (over_good _ O6) in HD, SM. unfold t_tok in HD, SM. cbn [t_past hd] in HD, SM. rewrite O6 in HD, SM.
          destruct (Parse p) as [o p'|p'|p'| |]; try contradiction. destruct SM as (-> & HS' & Hf').
          destruct (scanning_lined input _ (sc_reader _ _ (proj1 C4))) as (before & B1 & B2 & _). rewrite DA in B1.
          exists p', before. pose proof HS' as ((O1' & O2' & _) & _). cbn [t_scanner t_ahead length] in O1', O2'. split; [|split; [exact B1|split; [|split; [|split]]]].
          -- cbn [option_map deref_stmt]. rewrite <- B2. reflexivity.
          -- rewrite O1'. specialize (HD _ _ eq_refl). cbn [t_scanner] in HD. rewrite <- HD. symmetry. apply register_known. intros m q Hin. rewrite HD, I6, reader_ids. apply IV in Hin. destruct (L8 m q Hin) as [K|[]]. exact K.
          -- now rewrite O1'.
          -- exact O2'.
          -- exact Hf'.
      + (* none *) destruct HM as (Hk & -> & HB & ->). destruct LK3 as (pc3 & vs3 & ts3 & [_ _ L3 L4 _ L6 _ L8]). rewrite EA3 in L3. cbn [map app] in L3. subst ts3.
        assert (RL : rest (t_scanner t3) = l) by (now inversion L4). assert (EV3 : vs3 = []) by (now inversion L4). subst vs3. subst k.
        assert (SU : s_unread (t_scanner t3) = false).
        { destruct C3 as (_ & _ & C3). unfold seen in C3. rewrite EA3, EP3 in C3. cbn [rev app] in C3. unfold shows in C3. destruct (tok_of ck); try discriminate Hk; exact C3. }
        assert (DA : s_in (RuneReader (t_scanner t3)) = data) by (eapply behind_fun; [apply reader_behind|]; rewrite <- LemmasPosition.rest_in by exact SU; rewrite RL; exact HB).
        assert (RR : rest (RuneReader (t_scanner t3)) = data) by (rewrite LemmasPosition.rest_in; [exact DA|rewrite reader_unread; exact SU]).
        assert (ED : is_reserved (tok_of ck) [kDELIMITER] = false) by (now destruct (tok_of ck)).
        rewrite (tape_eta t3), EA3, EP3 in HD, SM. rewrite plain_tail, end_run in HD, SM by exact ED. unfold t_next in HD, SM. cbn [atTape t_ahead t_past t_scanner] in HD, SM. unfold t_tok in HD, SM. cbn [t_past hd] in HD, SM. rewrite Hk in HD, SM.
        destruct (Parse p) as [o p'|p'|p'| |]; try contradiction. destruct SM as (-> & HS' & Hf').
        destruct (scanning_lined input _ (sc_reader _ _ (proj1 C3))) as (before & B1 & B2 & _). rewrite DA in B1.
        exists p', before. pose proof HS' as ((O1' & O2' & _) & _). cbn [t_scanner t_ahead length] in O1', O2'. split; [|split; [exact B1|split; [|split; [|split]]]].
        * cbn [option_map deref_stmt]. rewrite <- B2. reflexivity.
        * rewrite O1'. specialize (HD _ _ eq_refl). cbn [t_scanner] in HD. rewrite <- HD. symmetry. apply register_known. intros m q Hin. rewrite HD, reader_ids. apply IV in Hin. destruct (L8 m q Hin) as [K|[]]. exact K.
        * now rewrite O1'.
        * exact O2'.
        * exact Hf'.
  Qed.
  Lemma copy_complete input p vs b data left : parsing input p -> p_unscanned p = 0%nat -> p_failed p = false -> real (s_ids (p_scanner p)) ->
    copy_text (rest (p_scanner p)) vs b data left ->
    exists T, real T /\ later (s_ids (p_scanner p)) T /\ (forall n q, In (TName n q) vs -> knows T n q) /\
      forall tn cols d, text_copies T vs tn cols d -> given d = b ->
      exists p' before, Parse p = PStmt (Some (SCopy tn cols (line_behind before) (delimiter d))) p' /\ input = before ++ data /\
        s_ids (p_scanner p') = T /\ rest (p_scanner p') = left /\ p_unscanned p' = 0%nat /\ p_failed p' = false.
  Proof. intros HP. destruct (parsing_in_step HU _ _ HP) as [t HS]. exact (copy_text_step input p t vs b data left HS). Qed.
End Copying.
