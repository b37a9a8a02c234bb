(** The properties of the scanner. *)

From Verif Require Import ModelScanner SpecScanner LemmasBase LemmasValue LemmasScanner LemmasScanText LemmasScanWords LemmasScanTokens LemmasScan LemmasScanAll.

Section Props.
  Context {X : FloatLib} {L : CaseLib} {U : RuneLib} {B : BufLib}.
  Context (HU : RuneLib_scan U).

  Lemma dropLine_suffix l : suffix (fst (dropLine l)) l.
  Proof. induction l as [|r l IH]; [apply suffix_refl|]. cbn. destruct (r =? 10); [apply suffix_cons, suffix_refl|now apply suffix_cons]. Qed.

  Lemma suffix_Forall {P : Z -> Prop} l' l : suffix l' l -> Forall P l -> Forall P l'.
  Proof. intros [w ->] F. now apply Forall_app in F. Qed.

  Lemma scanning_sane input s : scanning input s -> sane s.
  Proof.
    induction 1 as [ids input F|input s c s' c' H IH E|input s t H IH|input s H IH|input s H IH].
    - split; [|split]; cbn.
      + eapply Forall_impl; [|exact F]. cbn. lia.
      + unfold buffer_ok. cbn. lia.
      + discriminate.
    - destruct (Scan_any HU s c IH) as (s1 & c1 & u1 & E1 & H1 & _). rewrite E1 in E. injection E as <- <-. now apply at_sane in H1.
    - exact IH.
    - destruct IH as (S1 & S2 & S3). unfold RuneReader. pose proof (dropLine_suffix (s_in s)) as Sf. destruct (dropLine (s_in s)) as [r nl]. cbn [fst] in Sf.
      split; [|split]; cbn [s_in s_buffer s_unread s_read]; [now apply (suffix_Forall _ _ Sf)|exact S2|].
      intros Hu Hr. destruct (S3 Hu Hr) as [-> E]. split; [reflexivity|]. rewrite E in Sf. destruct Sf as [w Sf]. symmetry in Sf. now apply app_eq_nil in Sf.
    - destruct IH as (S1 & S2 & S3). unfold runeReaderReadRune. destruct (s_in s) as [|r l] eqn:E; cbn [snd]; [split; [|split]; auto; now rewrite E|].
      inversion S1; subst. split; [|split]; cbn [s_in s_buffer s_unread s_read]; [assumption|exact S2|].
      intros Hu Hr. destruct (S3 Hu Hr). discriminate.
  Qed.

  Lemma terminates input s c : scanning input s -> exists s' c', Scan s c = Some (s', c').
  Proof. intros H. destruct (Scan_any HU s c (scanning_sane _ _ H)) as (s' & c' & _ & E & _). now exists s', c'. Qed.

  Lemma lexeme_holds_token w v f l t s c : lexeme w v f l -> holds t v s c -> c_token c <> -1 /\ c_token c <> -3 /\ w <> [].
  Proof.
    intros Hx Hh. destruct Hx; cbn [holds] in Hh; try (destruct Hh as [-> _]; split; [lia|]; split; [lia|]); try discriminate.
    - destruct Hh as (_ & _ & ->). destruct (_ && _); repeat split; (lia || discriminate).
    - destruct Hh as (_ & _ & ->). cbn. repeat split; (lia || discriminate).
    - match goal with H : sign_text _ _ |- _ => destruct H end; cbn; try discriminate. destruct ds; [contradiction|discriminate].
    - match goal with H : sign_text _ _ |- _ => destruct H end; cbn; try discriminate. match goal with |- ?w ++ _ <> [] => destruct w; [contradiction|discriminate] end.
    - destruct Hh as [-> _]. match goal with H : In _ _ |- _ => cbn in H end. repeat split; (lia || discriminate).
    - destruct Hh as [-> _]. match goal with H : op_alone _ _ |- _ => destruct H as [H _]; cbn in H end. repeat split; (lia || discriminate).
    - destruct Hh as [-> _]. match goal with H : In _ _ |- _ => cbn in H; repeat destruct H as [H|H]; try contradiction; injection H as <- <- <- end; repeat split; (lia || discriminate).
  Qed.

  Lemma in_order input s c s' c' : scanning input s -> Scan s c = Some (s', c') ->
    exists w, rest s = w ++ rest s' /\ (c_token c' <> -1 -> w <> []) /\ (c_token c' = -1 -> rest s' = []).
  Proof.
    intros H E. destruct (Scan_any HU s c (scanning_sane _ _ H)) as (s1 & c1 & u1 & E1 & H1 & [w Hw] & R). rewrite E1 in E. injection E as <- <-.
    exists w. split; [exact Hw|]. destruct R as [(T & R1 & _)|[(T & _ & Hl & _)|(g & w' & f & v & R1 & R2 & R3 & R4)]].
    - split; [intros N; now elim N|]. intros _. exact R1.
    - split; [|rewrite T; discriminate]. intros _ ->. cbn in Hw. rewrite Hw in Hl. lia.
    - assert (R4' : holds (s_ids s) v s1 c1) by now destruct c1. destruct (lexeme_holds_token _ _ _ _ _ _ _ R3 R4') as (N1 & N2 & N3).
      split; [|intros T; now elim N1]. intros _ ->. cbn in Hw. rewrite <- Hw in R3. apply lexeme_suffix, suffix_length in R3. rewrite R1, !app_length in R3. destruct w'; [contradiction|cbn in R3; lia].
  Qed.

  Lemma whole_aux n : forall input s, (length (rest s) < n)%nat -> scanning input s -> exists cs s', to_end s cs s' /\ rest s' = [] /\ (length cs <= length (rest s) + 1)%nat.
  Proof.
    induction n as [|n IH]; intros input s Hn H; [lia|]. destruct (terminates _ _ c_zero H) as (s1 & c1 & E). pose proof (sc_scan _ _ _ _ _ H E) as H1.
    destruct (in_order _ _ _ _ _ H E) as (w & Hw & N1 & N2). destruct (Z.eq_dec (c_token c1) (-1)) as [T|T].
    - exists [c1], s1. split; [eapply te_eof; eassumption|]. split; [now apply N2|]. cbn. lia.
    - specialize (N1 T). assert (length (rest s1) < length (rest s))%nat by (rewrite Hw, app_length; destruct w; [contradiction|cbn; lia]).
      destruct (IH input s1 ltac:(lia) H1) as (cs & s' & E1 & R & Hl). exists (c1 :: cs), s'. split; [eapply te_token; eassumption|]. split; [exact R|]. cbn. lia.
  Qed.

  Lemma whole input s : scanning input s -> exists cs s', to_end s cs s' /\ rest s' = [] /\ (length cs <= length (rest s) + 1)%nat.
  Proof. intros H. apply (whole_aux (S (length (rest s))) input s); [lia|exact H]. Qed.

  Lemma eof_stays input s c s' c' : scanning input s -> rest s = [] -> Scan s c = Some (s', c') -> c_token c' = -1 /\ rest s' = [] /\ s_ids s' = s_ids s.
  Proof.
    intros H N E. destruct (in_order _ _ _ _ _ H E) as (w & Hw & N1 & N2). rewrite N in Hw. symmetry in Hw. apply app_eq_nil in Hw. destruct Hw as [-> Hs].
    destruct (Z.eq_dec (c_token c') (-1)) as [T|T]; [|now elim N1]. split; [exact T|]. split; [exact Hs|].
    destruct (Scan_any HU s c (scanning_sane _ _ H)) as (s1 & c1 & u1 & E1 & H1 & _ & R). rewrite E1 in E. injection E as <- <-.
    destruct R as [(_ & _ & R & _)|[(_ & R & _)|(g & w' & f & v & R1 & R2 & R3 & R4)]]; [exact R|exact R|].
    assert (R4' : holds (s_ids s) v s1 c1) by now destruct c1. destruct (lexeme_holds_token _ _ _ _ _ _ _ R3 R4'). contradiction.
  Qed.

  Lemma complete input s c g w v f l : scanning input s -> rest s = g ++ w ++ f -> gap g -> lexeme w v f l ->
    exists s' c', Scan s c = Some (s', c') /\ rest s' = l /\ holds (s_ids s) v s' c'.
  Proof.
    intros H R G Hx. destruct (Scan_some HU s c g w v f l (scanning_sane _ _ H) R G Hx) as (s' & c' & u' & E & H1 & H2). exists s', c'. split; [exact E|].
    split; [|exact H2]. apply H1.
  Qed.

  Lemma sound input s c s' c' : scanning input s -> Scan s c = Some (s', c') ->
    (c_token c' = -1 /\ s_ids s' = s_ids s /\ exists g e, rest s = g ++ e /\ gap g /\ no_token e) \/
    (c_token c' = -3 /\ s_ids s' = s_ids s /\ (c_error c' <> None \/ bad_escape (rest s))) \/
    (exists g w f v, rest s = g ++ w ++ f /\ gap g /\ lexeme w v f (rest s') /\ holds (s_ids s) v s' c').
  Proof.
    intros H E. destruct (Scan_any HU s c (scanning_sane _ _ H)) as (s1 & c1 & u1 & E1 & H1 & _ & R). rewrite E1 in E. injection E as <- <-.
    destruct R as [(T & _ & R & D)|[(T & R & _ & D)|(g & w' & f & v & R1 & R2 & R3 & R4)]].
    - left. now repeat split.
    - right. left. now repeat split.
    - right. right. exists g, w', f, v. split; [exact R1|]. split; [exact R2|]. split; [exact R3|]. now destruct c1.
  Qed.

  (** ** Literals *)

  Lemma doubled_body s : Forall (fun r => 0 <= r) s -> quoted_body false (doubled s) s.
  Proof.
    induction 1 as [|r s Hr Hs IH]; [constructor|]. cbn. destruct (Z.eqb_spec r 39) as [->|N]; [now constructor|]. constructor; auto. discriminate.
  Qed.

  Lemma string_literal input s c text f l : scanning input s -> Forall (fun r => 0 <= r) text ->
    rest s = 39 :: doubled text ++ 39 :: f -> quote_ends f l ->
    exists s' c', Scan s c = Some (s', c') /\ c_token c' = -6 /\ c_string c' = encode text /\ rest s' = l.
  Proof.
    intros H F R Q. destruct (complete input s c [] (39 :: doubled text ++ [39]) (TString (encode text)) f l H) as (s' & c' & E & R' & Hh).
    - rewrite R. cbn. now rewrite <- app_assoc.
    - constructor.
    - constructor; [now apply doubled_body|exact Q].
    - exists s', c'. destruct Hh as (T1 & T2 & _). now repeat split.
  Qed.

  Lemma hex_rune_digit d : 0 <= d <= 15 -> hex_digit (hex_rune d) d.
  Proof. intros H. unfold hex_rune. destruct (Z.ltb_spec d 10); constructor; lia. Qed.

  Lemma hex_text_body b : hex_body (hex_text b) b.
  Proof.
    induction b as [|x b IH]; [constructor|]. cbn [hex_text flat_map app]. pose proof (bz_range x) as Hx.
    replace x with (zb (bz x / 16 * 16 + bz x mod 16)) at 3 by (rewrite Z.mul_comm, <- Z.div_mod by lia; apply zb_bz).
    constructor; [| |exact IH]; apply hex_rune_digit.
    - split; [apply Z.div_pos; lia|]. enough (bz x / 16 < 16) by lia. apply Z.div_lt_upper_bound; lia.
    - pose proof (Z.mod_pos_bound (bz x) 16). lia.
  Qed.

  Lemma bytes_literal input s c q b f : scanning input s -> In q [120; 88] -> rest s = q :: 39 :: hex_text b ++ 39 :: f ->
    exists s' c', Scan s c = Some (s', c') /\ c_token c' = -7 /\ c_bytes c' = b_bytes (s_buffer s') /\ b_look (s_buffer s') (c_bytes c') = b /\ rest s' = f.
  Proof.
    intros H I R. destruct (complete input s c [] (q :: 39 :: hex_text b ++ [39]) (TBytes b) f f H) as (s' & c' & E & R' & Hh).
    - rewrite R. cbn. now rewrite <- app_assoc.
    - constructor.
    - constructor; [exact I|]. apply hex_text_body.
    - exists s', c'. destruct Hh as (T1 & T2 & T3 & _). now repeat split.
  Qed.

  Lemma number_literal input s c sg k ds f : scanning input s -> sign_text sg k -> ds <> [] -> Forall digit ds -> dec_value ds < 2 ^ 63 ->
    no_start (fun x => x_is_digit x = true \/ x = 46) f -> rest s = sg ++ map bz ds ++ f ->
    exists s' c', Scan s c = Some (s', c') /\ c_token c' = -8 /\ c_integer c' = k * dec_value ds /\ rest s' = f.
  Proof.
    intros H Hs N D V Nf R. destruct (complete input s c [] (sg ++ map bz ds) (TInteger (k * dec_value ds)) f f H) as (s' & c' & E & R' & Hh).
    - rewrite R. cbn. now rewrite <- app_assoc.
    - constructor.
    - now constructor.
    - exists s', c'. destruct Hh as (T1 & T2 & _). now repeat split.
  Qed.

  (** ** Numbers that are too large *)

  Lemma number_error fuel s c r w k f t : Forall (fun r => x_is_digit r = true) (r :: w) -> no_start (fun x => x_is_digit x = true \/ x = 46) f ->
    parse_int (encode (r :: w)) = None -> (length w + length f < fuel)%nat -> at_ s (w ++ f) [] t ->
    exists s', scanNumber fuel s c r k = Some (s', set_error c SNumber, -3) /\ rest s' = f.
  Proof.
    intros Fw Nf P Hf H. inversion Fw as [|? ? F1 F2]; subst. unfold scanNumber.
    pose proof (numberLoop_spec HU fuel s false r (w ++ f) [] t ltac:(rewrite app_length; lia) H) as N. rewrite (number_span_int w f F2 Nf) in N.
    destruct N as (s1 & E & H1). rewrite E. cbn [app] in H1. destruct H1 as (S1 & R1 & W1 & T1). rewrite W1, P.
    exists s1. now split.
  Qed.

  Lemma large_parse ds : ds <> [] -> Forall digit ds -> 2 ^ 63 <= dec_value ds -> parse_int ds = None.
  Proof.
    intros N D V. destruct (parse_int ds) as [i|] eqn:E; [|reflexivity]. exfalso. apply parse_int_spec in E. destruct E as [T R].
    inversion T as [ds' ? ?|ds' ? ?|ds' ? ?]; subst.
    - unfold is_i64 in R. lia.
    - inversion D as [|? ? Db _]; subst. unfold digit in Db. change (bz x2b) with 43 in Db. lia.
    - inversion D as [|? ? Db _]; subst. unfold digit in Db. change (bz x2d) with 45 in Db. lia.
  Qed.

  Lemma large_scan fuel s c sg k ds f t : sign_text sg k -> ds <> [] -> Forall digit ds -> 2 ^ 63 <= dec_value ds ->
    no_start (fun x => x_is_digit x = true \/ x = 46) f -> (length (sg ++ map bz ds ++ f) + 2 < fuel)%nat -> at_ s (sg ++ map bz ds ++ f) [] t ->
    exists s' c', scan fuel s c = Some (s', c', -3) /\ c_error c' = Some SNumber /\ rest s' = f.
  Proof.
    intros Hs N D V Nf Hf H.
    assert (Nl : forall r, 0 <= r < 128 -> ~ 65 <= r <= 90 -> ~ 97 <= r <= 122 -> x_is_letter r = false).
    { intros x Hr N1 N2. destruct (x_is_letter x) eqn:E; [|reflexivity]. apply (letter_ascii HU) in E; lia. }
    assert (Nd : forall r, 0 <= r < 128 -> ~ 48 <= r <= 57 -> x_is_digit r = false).
    { intros x Hr N1. destruct (x_is_digit x) eqn:E; [|reflexivity]. apply (digit_ascii HU) in E; lia. }
    assert (Ns : forall r, 0 <= r < 128 -> r <> 32 -> ~ 9 <= r <= 13 -> x_is_space r = false).
    { intros x Hr N1 N2. destruct (x_is_space x) eqn:E; [|reflexivity]. apply (space_ascii HU) in E; lia. }
    assert (Pi : parse_int (encode (map bz ds)) = None) by (rewrite encode_bytes by exact D; now apply large_parse).
    assert (Fd := digits_runes HU ds D). destruct ds as [|b ds]; [now elim N|]. cbn [map] in *.
    assert (Db : x_is_digit (bz b) = true) by (inversion Fd; assumption). inversion D as [|? ? Dg _]; subst. unfold digit in Dg.
    destruct fuel as [|fuel]; [lia|]. cbn [scan].
    destruct (skipWhitespace_spec (S fuel) s (sg ++ (bz b :: map bz ds) ++ f) [] t ltac:(lia) H) as (s1 & E & H1). rewrite E. clear E.
    assert (Sp : span x_is_space (sg ++ (bz b :: map bz ds) ++ f) = ([], sg ++ (bz b :: map bz ds) ++ f)).
    { apply (span_app x_is_space []); [constructor|]. destruct Hs; cbn; rewrite Ns by lia; discriminate. }
    rewrite Sp in *. cbn [fst snd] in *. unfold scanToken, comments.
    inversion Hs; subst; cbn [app hd_rune tl length] in *.
    - rewrite app_length in Hf.
      destruct (Z.ltb_spec (bz b) 0); [lia|].
      repeat match goal with |- context [bz b =? ?k] => destruct (Z.eqb_spec (bz b) k); [lia|] end. cbn [orb]. rewrite Nl by lia. cbn [orb]. rewrite Db. set (c0 := set_position _ _ _).
      destruct (number_error (S fuel) s1 c0 (bz b) (map bz ds) 1 f t Fd Nf Pi ltac:(lia) H1) as (s' & E & R).
      exists s', (set_error c0 SNumber). now split.
    - change (43 <? 0) with false. cbn [Z.eqb Pos.eqb orb]. rewrite Nl, Nd by lia. cbn [orb].
      destruct (read_cons _ _ _ _ _ H1) as (s2 & R & H0 & _). rewrite R, Db. set (c0 := set_position _ _ _). rewrite app_length in Hf.
      destruct (number_error (S fuel) s2 c0 (bz b) (map bz ds) 1 f t Fd Nf Pi ltac:(lia) H0) as (s' & E & R').
      exists s', (set_error c0 SNumber). now split.
    - change (45 <? 0) with false. cbn [Z.eqb Pos.eqb orb].
      destruct (read_cons _ _ _ _ _ H1) as (s2 & R & H0 & H2 & _). rewrite R. destruct (Z.eqb_spec (bz b) 45); [lia|]. destruct (Z.ltb_spec (bz b) 0); [lia|].
      rewrite Nl, Nd by lia. cbn [orb].
      destruct (read_cons _ _ _ _ _ H2) as (s3 & R3 & Hz3 & _). rewrite R3, Db. set (c0 := set_position _ _ _). rewrite app_length in Hf.
      destruct (number_error (S fuel) s3 c0 (bz b) (map bz ds) (-1) f t Fd Nf Pi ltac:(lia) Hz3) as (s' & E & R').
      exists s', (set_error c0 SNumber). now split.
  Qed.

  Lemma large_literal input s c sg k ds f : scanning input s -> sign_text sg k -> ds <> [] -> Forall digit ds -> 2 ^ 63 <= dec_value ds ->
    no_start (fun x => x_is_digit x = true \/ x = 46) f -> rest s = sg ++ map bz ds ++ f ->
    exists s' c', Scan s c = Some (s', c') /\ c_token c' = -3 /\ c_error c' = Some SNumber /\ rest s' = f.
  Proof.
    intros H Hs N D V Nf R. pose proof (scanning_sane _ _ H) as Sn. pose proof (at_reset _ _ _ _ (at_self s Sn)) as H1. pose proof (rest_length s) as Hl. rewrite R in *.
    unfold Scan, ScanFuel, scan_fuel.
    destruct (large_scan (4 + length (s_in s)) _ c sg k ds f _ Hs N D V Nf ltac:(lia) H1) as (s' & c' & E & E1 & R1). rewrite E.
    exists s', (set_token c' (-3)). now repeat split.
  Qed.

  (** ** The bytes of a literal after another token *)

  Lemma readRune_buffer s : s_buffer (snd (readRune s)) = s_buffer s.
  Proof. unfold readRune. destruct (s_unread s); [reflexivity|]. now destruct (s_in s). Qed.

  Lemma skipWhitespace_buffer fuel : forall s r s', skipWhitespace fuel s = Some (r, s') -> s_buffer s' = s_buffer s.
  Proof.
    induction fuel as [|fuel IH]; intros s r s' E; [discriminate|]. cbn [skipWhitespace] in E. pose proof (readRune_buffer s) as Hb. destruct (readRune s) as [x s1]. cbn [snd] in Hb.
    repeat match type of E with (if ?b then _ else _) = _ => destruct b end; try (injection E as <- <-; exact Hb); apply IH in E; congruence.
  Qed.

  Definition wrote (b : buffer) (w : list Z) : buffer := fold_left b_writeRune w b.

  Lemma identifierLoop_buffer fuel : forall s r w f u t s', Forall name_rune w -> no_start name_rune f -> at_ s (w ++ f) u t ->
    identifierLoop fuel s r = Some s' -> s_buffer s' = wrote (s_buffer s) (r :: w).
  Proof.
    induction fuel as [|fuel IH]; intros s r w f u t s' Fw Nf H E; [discriminate|]. cbn [identifierLoop] in E.
    pose proof (readRune_buffer (writeRune s r)) as Hb. apply (at_write _ _ _ _ r) in H.
    destruct (read_any _ _ _ _ H) as (s1 & R & H1 & H2 & Hp & _). rewrite R in *. cbn [snd] in Hb.
    destruct w as [|x w]; cbn [app hd_rune tl] in *.
    - assert (Nx : f = [] \/ name_runeb (hd_rune f) = false).
      { destruct f as [|y f]; [now left|right]. cbn in *. destruct (name_runeb y) eqn:K; [|reflexivity]. apply name_runeb_spec in K. contradiction. }
      destruct Nx as [->|Nx]; [cbn in E; injection E as <-; exact Hb|]. destruct (Z.eqb_spec (hd_rune f) (-1)) as [K|K]; [injection E as <-; exact Hb|].
      replace (negb (x_is_letter (hd_rune f)) && negb (x_is_digit (hd_rune f)) && negb (hd_rune f =? 95) && negb (hd_rune f =? 36)) with (negb (name_runeb (hd_rune f))) in E
        by (unfold name_runeb; now rewrite !Bool.negb_orb).
      rewrite Nx in E. cbn in E. injection E as <-. exact Hb.
    - inversion Fw as [|? ? F1 F2]; subst. destruct (Z.eqb_spec x (-1)) as [->|K].
      { exfalso. destruct F1 as [F1|[F1|F1]]; [apply (letter_pos HU) in F1; lia|apply (digit_pos HU) in F1; lia|lia]. }
      replace (negb (x_is_letter x) && negb (x_is_digit x) && negb (x =? 95) && negb (x =? 36)) with (negb (name_runeb x)) in E
        by (unfold name_runeb; now rewrite !Bool.negb_orb).
      rewrite (proj2 (name_runeb_spec x) F1) in E. cbn [negb] in E. rewrite (IH _ _ _ _ _ _ _ F2 Nf H1 E), Hb. reflexivity.
  Qed.

  Lemma name_buffer input s c sp r w f s' c' : scanning input s -> Forall space sp -> lexeme (r :: w) (TName (encode (r :: w)) false) f f ->
    rest s = sp ++ (r :: w) ++ f -> Scan s c = Some (s', c') -> s_buffer s' = wrote (b_reset (s_buffer s)) (r :: w).
  Proof.
    intros H F Hx R E. pose proof (scanning_sane _ _ H) as Sn. pose proof (at_reset _ _ _ _ (at_self s Sn)) as H1. pose proof (rest_length s) as Hl. rewrite R in *.
    inversion Hx as [|? ? ? Hn Fw Nf Hq| | | | | | | | | | |]; subst.
    assert (Pr : 0 <= r) by (destruct Hn as [Hn|Hn]; [now apply (letter_pos HU) in Hn|lia]).
    unfold Scan, ScanFuel, scan_fuel in E. cbn [Nat.add scan] in E. set (s0 := set_buffer s (b_reset (s_buffer s))) in *. set (fu := S (S (S (length (s_in s))))) in *.
    destruct (skipWhitespace_spec (S fu) s0 (sp ++ (r :: w) ++ f) [] (s_ids s) ltac:(subst fu; lia) H1) as (s1 & E1 & H2). rewrite E1 in E. pose proof (skipWhitespace_buffer _ _ _ _ E1) as Hb.
    assert (Sr : x_is_space r = false).
    { destruct Hn as [Hn| ->]; [now apply HU in Hn|]. destruct (x_is_space 95) eqn:K; [|reflexivity]. apply (space_ascii HU) in K; lia. }
    assert (Sp : span x_is_space (sp ++ (r :: w) ++ f) = (sp, (r :: w) ++ f)) by (apply span_app; [exact F|cbn; now rewrite Sr]).
    rewrite Sp in *. cbn [fst snd app hd_rune tl] in *. destruct (Z.ltb_spec r 0); [lia|].
    assert (Ne : forall k, 0 <= k < 128 -> k <> 95 -> ~ 65 <= k <= 90 -> ~ 97 <= k <= 122 -> (r =? k) = false).
    { intros k K1 K2 K3 K4. apply Z.eqb_neq. intros ->. destruct Hn as [Hn|Hn]; [apply (letter_ascii HU) in Hn; lia|lia]. }
    unfold comments in E. rewrite (Ne 59), (Ne 45), (Ne 47) in E by lia. unfold scanToken in E.
    assert (Go : forall s2 c2, at_ s2 (w ++ f) [] (s_ids s) -> s_buffer s2 = b_reset (s_buffer s) ->
      match scanIdentifier (S fu) s2 c2 r with Some (s0, c0, t) => Some (s0, set_token c0 t) | None => None end = Some (s', c') -> s_buffer s' = wrote (b_reset (s_buffer s)) (r :: w)).
    { intros s2 c2 A2 B2. unfold scanIdentifier. destruct (identifierLoop (S fu) s2 r) as [s3|] eqn:E3; [|discriminate].
      pose proof (identifierLoop_buffer _ _ _ _ _ _ _ _ Fw Nf A2 E3) as Hb3. destruct (ID _ _ _) as [t2 id]. intros K. injection K as <- _. cbn [set_ids s_buffer]. now rewrite Hb3, B2. }
    assert (B1 : s_buffer s1 = b_reset (s_buffer s)) by exact Hb.
    assert (Nq : In r [101; 69; 98; 120; 88] -> hd_rune (w ++ f) <> 39).
    { intros I. specialize (Hq I). destruct w as [|x w]; cbn [app hd_rune].
      - specialize (Hq eq_refl). destruct f as [|y l]; cbn in *; [lia|congruence].
      - inversion Fw as [|? ? F1 _]; subst. intros ->. destruct F1 as [F1|[F1|F1]]; [apply (letter_ascii HU) in F1; lia|apply (digit_ascii HU) in F1; lia|lia]. }
    destruct (read_any _ _ _ _ H2) as (s2 & R2 & H3 & Hz4 & _). pose proof (readRune_buffer s1) as B2. rewrite R2 in *. cbn [snd] in B2.
    assert (B3 : s_buffer (unreadRune s2) = b_reset (s_buffer s)) by (cbn; congruence).
    destruct (Z.eqb_spec r 101) as [E2|E2]; [|destruct (Z.eqb_spec r 69) as [E3|E3]]; cbn [orb] in E.
    1,2: (destruct (Z.eqb_spec (hd_rune (w ++ f)) 39) as [Q|Q]; [elim Nq; [subst r; cbn; tauto|exact Q]|now apply Go in E]).
    destruct (Z.eqb_spec r 98) as [E4|E4].
    { (destruct (Z.eqb_spec (hd_rune (w ++ f)) 39) as [Q|Q]; [elim Nq; [subst r; cbn; tauto|exact Q]|now apply Go in E]). }
    destruct (Z.eqb_spec r 120) as [E5|E5]; [|destruct (Z.eqb_spec r 88) as [E6|E6]]; cbn [orb] in E.
    1,2: (destruct (Z.eqb_spec (hd_rune (w ++ f)) 39) as [Q|Q]; [elim Nq; [subst r; cbn; tauto|exact Q]|now apply Go in E]).
    replace (x_is_letter r || (r =? 95)) with true in E by (destruct Hn as [-> | ->]; now rewrite ?Bool.orb_true_r). now apply Go in E.
  Qed.

  Lemma skipn_twice {A} m : forall n (l : list A), skipn n (skipn m l) = skipn (m + n) l.
  Proof. induction m as [|m IH]; intros n l; [reflexivity|]. destruct l; [now rewrite !skipn_nil|apply IH]. Qed.

  Lemma wrote_ascii w : Forall (fun r => 0 <= r < 128) w -> forall b, (b_len b + length w <= length (b_arr b))%nat ->
    wrote b w = {| b_old := b_old b; b_arr := firstn (b_len b) (b_arr b) ++ map zb w ++ skipn (b_len b + length w) (b_arr b); b_len := b_len b + length w |}.
  Proof.
    induction 1 as [|r w Hr Hw IH]; intros b Hl; cbn [wrote fold_left map length app] in *.
    - destruct b as [o a n]. cbn [b_old b_arr b_len] in *. rewrite Nat.add_0_r. f_equal. now rewrite firstn_skipn.
    - fold (wrote (b_writeRune b r) w).
      assert (E : b_writeRune b r = {| b_old := b_old b; b_arr := firstn (b_len b) (b_arr b) ++ [zb r] ++ skipn (b_len b + 1) (b_arr b); b_len := b_len b + 1 |}).
      { unfold b_writeRune. destruct (Z.leb_spec 0 r); [|lia]. destruct (Z.ltb_spec r 128); [|lia]. cbn [andb]. unfold b_writeByte, b_grow.
        destruct (Nat.leb_spec (b_len b + 1) (length (b_arr b))); [reflexivity|lia]. }
      assert (La : length (b_arr (b_writeRune b r)) = length (b_arr b)).
      { rewrite E. cbn [b_arr]. rewrite !app_length, firstn_length, skipn_length. cbn [length]. lia. }
      rewrite IH by (rewrite La, E; cbn [b_len]; lia). rewrite E. cbn [b_old b_arr b_len]. f_equal; [|lia].
      set (a0 := firstn (b_len b) (b_arr b)). assert (Lx : length (a0 ++ [zb r]) = (b_len b + 1)%nat) by (subst a0; rewrite app_length, firstn_length; cbn; lia).
      rewrite !(app_assoc a0 [zb r]). set (a1 := a0 ++ [zb r]) in *.
      rewrite (firstn_app (b_len b + 1) a1), (skipn_app (b_len b + 1 + length w) a1), Lx, Nat.sub_diag, (firstn_all2 a1), (skipn_all2 a1) by lia.
      cbn [firstn app]. rewrite app_nil_r, skipn_twice. subst a1. rewrite <- app_assoc. cbn [app]. do 4 f_equal. lia.
  Qed.

  Lemma alias input s c q b sp r w f s1 c1 c0 s2 c2 : scanning input s -> In q [120; 88] -> Forall space sp -> Forall (fun x => 0 <= x < 128) (r :: w) ->
    lexeme (r :: w) (TName (encode (r :: w)) false) f f -> (length (r :: w) <= length b)%nat ->
    rest s = q :: 39 :: hex_text b ++ 39 :: sp ++ (r :: w) ++ f -> Scan s c = Some (s1, c1) -> Scan s1 c0 = Some (s2, c2) ->
    b_look (s_buffer s1) (c_bytes c1) = b /\ b_look (s_buffer s2) (c_bytes c1) = map zb (r :: w) ++ skipn (length (r :: w)) b.
  Proof.
    intros H I F A Hx Hl R E1 E2. destruct (bytes_literal input s c q b _ H I R) as (s1' & c1' & E & _ & Hb & Hv & R1). rewrite E1 in E. injection E as <- <-.
    pose proof (sc_scan _ _ _ _ _ H E1) as H1. split; [exact Hv|].
    rewrite (name_buffer _ _ _ _ _ _ _ _ _ H1 F Hx R1 E2). rewrite Hb in *. rewrite b_look_bytes in Hv.
    pose proof (scanning_sane _ _ H1) as (_ & Ok & _). unfold buffer_ok in Ok.
    assert (Lb : length b = b_len (s_buffer s1)) by (rewrite <- Hv; unfold b_string; rewrite firstn_length; lia).
    rewrite wrote_ascii by (assumption || (cbn [b_reset b_len b_arr]; lia)). unfold b_look, b_bytes, b_reset. cbn [sl_array sl_len b_old b_arr b_len Nat.add firstn app].
    rewrite nth_middle. rewrite <- Lb. rewrite firstn_app, map_length. rewrite firstn_all2 by (rewrite map_length; lia). f_equal.
    rewrite <- Hv at 2. unfold b_string. rewrite skipn_firstn_comm. now rewrite Lb.
  Qed.

  Lemma dropped input s c g e : scanning input s -> rest s = g ++ e -> gap g -> no_token e ->
    exists s', Scan s c = Some (s', set_token c (-1)) /\ rest s' = [] /\ s_ids s' = s_ids s.
  Proof. intros H. apply (Scan_none HU). now apply scanning_sane in H. Qed.
End Props.
