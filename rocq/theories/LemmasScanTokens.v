(** One token. *)

From Verif Require Import ModelScanner SpecScanner LemmasBase LemmasValue LemmasScanner LemmasScanText LemmasScanWords.

Section Tokens.
  Context {X : FloatLib} {L : CaseLib} {U : RuneLib} {B : BufLib}.
  Context (HU : RuneLib_scan U).

  Definition outcome (pre l : list Z) (t : idtable) (o : scanned) : Prop :=
    exists s' c' tk l' u', o = Some (s', c', tk) /\ at_ s' l' u' (s_ids s') /\ suffix l' l /\
      ((tk = -3 /\ s_ids s' = t /\ (c_error c' <> None \/ bad_escape l)) \/
       exists w f v, l = w ++ f /\ lexeme (pre ++ w) v f l' /\ holds t v s' (set_token c' tk)).

  Lemma at_ids_eq s l u t : at_ s l u t -> s_ids s = t.
  Proof. now intros (_ & _ & _ & ->). Qed.

  Lemma digit_ascii r : 0 <= r < 128 -> x_is_digit r = true <-> 48 <= r <= 57.
  Proof. intros H. destruct HU as (H1 & _). now destruct (H1 r H) as (_ & ? & _). Qed.
  Lemma letter_ascii r : 0 <= r < 128 -> x_is_letter r = true <-> 65 <= r <= 90 \/ 97 <= r <= 122.
  Proof. intros H. destruct HU as (H1 & _). now destruct (H1 r H) as (? & _). Qed.
  Lemma space_ascii r : 0 <= r < 128 -> x_is_space r = true <-> r = 32 \/ 9 <= r <= 13.
  Proof. intros H. destruct HU as (H1 & _). now destruct (H1 r H) as (_ & _ & ?). Qed.
  Lemma digit_pos r : x_is_digit r = true -> 0 <= r.
  Proof. intros H. destruct HU as (_ & H1 & _). apply H1. tauto. Qed.
  Lemma letter_pos r : x_is_letter r = true -> 0 <= r.
  Proof. intros H. destruct HU as (_ & H1 & _). apply H1. tauto. Qed.

  Lemma no_start_impl (p q : Z -> Prop) l : (forall r, q r -> p r) -> no_start p l -> no_start q l.
  Proof. intros H. destruct l; [easy|]. cbn. intros N Q. apply N, H, Q. Qed.

  (** ** Identifiers *)

  Lemma ident_some fuel s c r w f t : Forall name_rune w -> no_start name_rune f -> (length w + length f < fuel)%nat ->
    at_ s (w ++ f) [] t ->
    exists s' c' tk u', scanIdentifier fuel s c r = Some (s', c', tk) /\ at_ s' f u' (s_ids s') /\ holds t (TName (encode (r :: w)) false) s' (set_token c' tk).
  Proof.
    intros Fw Nf Hf H. unfold scanIdentifier.
    destruct (identifierLoop_spec fuel s r (w ++ f) [] t ltac:(rewrite app_length; lia) H) as (s1 & E & H1). rewrite E.
    rewrite span_app in H1.
    2:{ eapply Forall_impl; [|exact Fw]. intros x. apply name_runeb_spec. }
    2:{ eapply no_start_impl; [|exact Nf]. intros x. apply name_runeb_spec. }
    cbn [fst snd app] in H1. destruct H1 as (S1 & R1 & W1 & T1). rewrite W1, T1.
    destruct (ID t (encode (r :: w)) false) as [t' id] eqn:EI. exists (set_ids s1 t'). do 2 eexists. eexists. split; [reflexivity|]. split.
    - apply (at_ids s1 f (encode (r :: w)) t t'). now repeat split; try apply S1.
    - cbn [holds set_ident set_token c_ident c_token set_ids s_ids negb andb fst snd]. rewrite EI. cbn [fst snd]. repeat split.
  Qed.

  Lemma ident_out fuel s c r l t : name_start r -> (In r [101; 69; 98; 120; 88] -> no_start (eq 39) l) -> (length l < fuel)%nat ->
    at_ s l [] t -> outcome [r] l t (scanIdentifier fuel s c r).
  Proof.
    intros Hr Hq Hf H. destruct (span_spec name_runeb l) as (I1 & I2 & I3). destruct (span name_runeb l) as [w f]. cbn [fst snd] in *. subst l.
    assert (Fw : Forall name_rune w) by (eapply Forall_impl; [|exact I2]; intros x; apply name_runeb_spec).
    assert (Nf : no_start name_rune f) by (eapply no_start_impl; [|exact I3]; intros x; apply name_runeb_spec).
    rewrite app_length in Hf.
    destruct (ident_some fuel s c r w f t Fw Nf Hf H) as (s' & c' & tk & u' & E & H1 & H2). exists s', c', tk, f, u'. split; [exact E|]. split; [exact H1|].
    split; [apply suffix_app, suffix_refl|]. right. exists w, f, (TName (encode (r :: w)) false). split; [reflexivity|]. split; [|exact H2].
    cbn [app]. constructor; auto. intros I ->. now apply Hq.
  Qed.

  Lemma quotedid_some fuel s c d w f t : ~ In d w -> (length w + length f + 1 < fuel)%nat -> at_ s (w ++ [d] ++ f) [] t ->
    exists s' c' u', scanQuotedIdentifier fuel s c d = Some (s', c', -4) /\ at_ s' f u' (s_ids s') /\ holds t (TName (encode w) true) s' (set_token c' (-4)).
  Proof.
    intros Nd Hf H. unfold scanQuotedIdentifier.
    destruct (quotedIdentifierLoop_spec fuel s d (w ++ [d] ++ f) [] t ltac:(rewrite !app_length; cbn; lia) H) as (s1 & H1 & E). rewrite E.
    assert (Sp : span (fun r => negb (r =? d)) (w ++ [d] ++ f) = (w, [d] ++ f)).
    { apply span_app; [|cbn; rewrite Z.eqb_refl; discriminate].
      apply Forall_forall; intros x Hx; apply Bool.negb_true_iff, Z.eqb_neq; intros ->; contradiction. }
    rewrite Sp in *.
    cbn [fst snd app tl] in *. destruct H1 as (S1 & R1 & W1 & T1). rewrite W1, T1.
    destruct (ID t (encode w) true) as [t' id] eqn:EI. exists (set_ids s1 t'). do 2 eexists. split; [reflexivity|]. split.
    - apply (at_ids s1 f (encode w) t t'). now repeat split; try apply S1.
    - cbn [holds set_ident set_token c_ident c_token set_ids s_ids negb andb fst snd]. rewrite EI. cbn [fst snd]. repeat split.
  Qed.

  Lemma quotedid_out fuel s c o d l t : In (o, d) [(34, 34); (96, 96); (91, 93)] -> (length l < fuel)%nat -> at_ s l [] t ->
    outcome [o] l t (scanQuotedIdentifier fuel s c d).
  Proof.
    intros Ho Hf H. destruct (span_spec (fun r => negb (r =? d)) l) as (I1 & I2 & I3). destruct (span (fun r => negb (r =? d)) l) as [w f] eqn:Sp. cbn [fst snd] in *.
    assert (Nd : ~ In d w). { intros I. rewrite Forall_forall in I2. specialize (I2 d I). rewrite Z.eqb_refl in I2. discriminate. }
    destruct f as [|x f].
    - unfold scanQuotedIdentifier. destruct (quotedIdentifierLoop_spec fuel s d l [] t Hf H) as (s1 & H1 & E). rewrite E, Sp in *. cbn [fst snd tl] in *.
      do 5 eexists. split; [reflexivity|]. rewrite (at_ids_eq _ _ _ _ H1). split; [exact H1|]. split; [exists l; now rewrite app_nil_r|]. left. split; [reflexivity|]. split; [reflexivity|]. left. discriminate.
    - assert (x = d) as ->. { cbn in I3. destruct (Z.eqb_spec x d); [assumption|]. now elim I3. }
      subst l. rewrite app_length in Hf. cbn in Hf.
      destruct (quotedid_some fuel s c d w f t Nd ltac:(lia) H) as (s' & c' & u' & E & H1 & H2). exists s', c', (-4), f, u'. split; [exact E|]. split; [exact H1|].
      split; [apply suffix_app, suffix_cons, suffix_refl|]. right. exists (w ++ [d]), f, (TName (encode w) true). split; [now rewrite <- app_assoc|]. split; [|exact H2].
      cbn [app]. now constructor.
  Qed.

  (** ** Numbers *)

  Lemma dec_value_nonneg ds : Forall digit ds -> 0 <= dec_value ds.
  Proof.
    induction ds as [|b ds IH] using rev_ind; intros H; [now unfold dec_value|]. apply Forall_app in H. destruct H as [H1 H2].
    rewrite dec_value_app. inversion H2; subst. unfold digit in *. specialize (IH H1). lia.
  Qed.

  Lemma encode_bytes ds : Forall digit ds -> encode (map bz ds) = ds.
  Proof.
    induction 1 as [|b ds Hb H IH]; [reflexivity|]. cbn [map]. rewrite encode_cons, IH. unfold digit in Hb. rewrite utf8_ascii by lia.
    rewrite zb_bz. reflexivity.
  Qed.

  Lemma digits_runes ds : Forall digit ds -> Forall (fun r => x_is_digit r = true) (map bz ds).
  Proof. intros H. apply Forall_map. eapply Forall_impl; [|exact H]. intros b Hb. unfold digit in Hb. apply digit_ascii; lia. Qed.

  Lemma utf8_big r : 128 <= r -> exists b bs, utf8_encode r = b :: bs /\ 192 <= bz b.
  Proof.
    intros H. unfold utf8_encode. destruct (Z.ltb_spec r 0); [lia|]. cbn [orb].
    set (r' := if (1114111 <? r) || ((55296 <=? r) && (r <=? 57343)) then RuneError else r). assert (Hr : 128 <= r' <= 1114111).
    { subst r'. destruct (Z.ltb_spec 1114111 r); cbn [orb]; [unfold RuneError; lia|]. destruct (Z.leb_spec 55296 r), (Z.leb_spec r 57343); cbn [andb]; unfold RuneError; lia. }
    clearbody r'. destruct (Z.ltb_spec r' 128); [lia|].
    destruct (Z.ltb_spec r' 2048); [|destruct (Z.ltb_spec r' 65536)]; do 2 eexists; (split; [reflexivity|]).
    - assert (2 <= r' / 64 < 32) by (split; [apply Z.div_le_lower_bound|apply Z.div_lt_upper_bound]; lia). rewrite bz_zb, Z.mod_small; lia.
    - assert (0 <= r' / 4096 < 16) by (split; [apply Z.div_le_lower_bound|apply Z.div_lt_upper_bound]; lia). rewrite bz_zb, Z.mod_small; lia.
    - assert (0 <= r' / 262144 < 5) by (split; [apply Z.div_le_lower_bound|apply Z.div_lt_upper_bound]; lia). rewrite bz_zb, Z.mod_small; lia.
  Qed.

  Lemma encode_digits_inv w : Forall (fun r => 0 <= r) w -> Forall digit (encode w) -> w = map bz (encode w).
  Proof.
    induction 1 as [|r w Hr H IH]; intros D; [reflexivity|]. rewrite encode_cons in *. apply Forall_app in D. destruct D as [D1 D2].
    destruct (Z_lt_le_dec r 128) as [Lo|Hi].
    - rewrite utf8_ascii in * by lia. cbn [app map]. rewrite bz_zb, Z.mod_small by lia. f_equal. now apply IH.
    - destruct (utf8_big r Hi) as (b & bs & E & Hb). rewrite E in D1. inversion D1; subst. unfold digit in *. lia.
  Qed.

  Lemma parse_digit_runes w i : w <> [] -> Forall (fun r => x_is_digit r = true) w ->
    parse_int (encode w) = Some i -> exists ds, w = map bz ds /\ ds <> [] /\ Forall digit ds /\ dec_value ds = i /\ 0 <= i < 2 ^ 63.
  Proof.
    intros Nw Fw P. apply parse_int_spec in P. destruct P as [P R].
    assert (Pos : Forall (fun r => 0 <= r) w) by (eapply Forall_impl; [|exact Fw]; intros r; apply digit_pos).
    assert (NS : forall b ds, bz b < 48 -> encode w <> b :: ds).
    { intros b ds Hb E. destruct w as [|r w]; [now elim Nw|]. rewrite encode_cons in E. inversion Fw; subst. inversion Pos; subst.
      destruct (Z_lt_le_dec r 128) as [Lo|Hi].
      - rewrite utf8_ascii in E by lia. cbn in E. injection E as <- _. rewrite bz_zb, Z.mod_small in Hb by lia. apply digit_ascii in H1; lia.
      - destruct (utf8_big r Hi) as (b' & bs & E' & Hb'). rewrite E' in E. cbn in E. injection E as <- _. lia. }
    inversion P as [ds N D E|ds N D E|ds N D E]; subst.
    - exists (encode w). split; [now apply encode_digits_inv|]. split; [exact N|]. split; [exact D|]. split; [reflexivity|].
      unfold is_i64 in R. split; [|lia]. apply dec_value_nonneg; auto.
    - exfalso. now apply (NS x2b ds).
    - exfalso. now apply (NS x2d ds).
  Qed.

  Lemma dec_parse ds : ds <> [] -> Forall digit ds -> dec_value ds < 2 ^ 63 -> parse_int ds = Some (dec_value ds).
  Proof.
    intros N D H. apply parse_int_spec. split; [now constructor|]. unfold is_i64. split; [|exact H].
    pose proof (dec_value_nonneg ds D). lia.
  Qed.

  Lemma number_span_int w f : Forall (fun r => x_is_digit r = true) w -> no_start (fun x => x_is_digit x = true \/ x = 46) f -> number_span false (w ++ f) = (w, f, false).
  Proof.
    intros Fw Nf. unfold number_span. rewrite (span_app x_is_digit w f Fw); [|eapply no_start_impl; [|exact Nf]; intros r Hr; now left].
    destruct f as [|x f]; [reflexivity|]. cbn in Nf. destruct (Z.eq_dec x 46); [tauto|]. destruct x as [|p|p]; try reflexivity. do 6 (destruct p as [p|p|]; try reflexivity). tauto.
  Qed.

  Lemma number_span_float w v f : Forall (fun r => x_is_digit r = true) w -> Forall (fun r => x_is_digit r = true) v -> no_start (fun x => x_is_digit x = true) f ->
    number_span false (w ++ [46] ++ v ++ f) = (w ++ 46 :: v, f, true).
  Proof.
    intros Fw Fv Nf. unfold number_span. rewrite (span_app x_is_digit w _ Fw); [|cbn; now rewrite (digit_dot HU)].
    cbn [app]. now rewrite (span_app x_is_digit v f Fv Nf).
  Qed.

  Lemma integer_some fuel s c r w k i f t : Forall (fun r => x_is_digit r = true) (r :: w) -> no_start (fun x => x_is_digit x = true \/ x = 46) f ->
    parse_int (encode (r :: w)) = Some i -> 0 <= i < 2 ^ 63 -> k = 1 \/ k = -1 -> (length w + length f < fuel)%nat -> at_ s (w ++ f) [] t ->
    exists s' c' u', scanNumber fuel s c r k = Some (s', c', -8) /\ at_ s' f u' (s_ids s') /\ holds t (TInteger (k * i)) s' (set_token c' (-8)).
  Proof.
    intros Fw Nf P Hi Hk Hf H. inversion Fw as [|? ? F1 F2]; subst. unfold scanNumber.
    pose proof (numberLoop_spec HU fuel s false r (w ++ f) [] t ltac:(rewrite app_length; lia) H) as N. rewrite (number_span_int w f F2 Nf) in N.
    destruct N as (s1 & E & H1). rewrite E. cbn [app] in H1. destruct H1 as (S1 & R1 & W1 & T1). rewrite W1, P.
    exists s1. do 2 eexists. split; [reflexivity|]. split; [rewrite T1; now repeat split; try apply S1|].
    cbn [holds set_integer set_token c_token c_integer]. split; [reflexivity|]. split; [|exact T1]. rewrite i64_small; [lia|]. unfold is_i64. lia.
  Qed.

  Lemma float_some fuel s c r w v k p f t : Forall (fun r => x_is_digit r = true) (r :: w) -> Forall (fun r => x_is_digit r = true) v ->
    no_start (fun x => x_is_digit x = true) f ->
    x_parse_float (encode ((r :: w) ++ [46] ++ v)) = Some p -> k = 1 \/ k = -1 -> (length w + length v + length f + 1 < fuel)%nat -> at_ s (w ++ [46] ++ v ++ f) [] t ->
    exists s' c' u', scanNumber fuel s c r k = Some (s', c', -9) /\ at_ s' f u' (s_ids s') /\ holds t (TFloat (if k =? 1 then p else f_neg p)) s' (set_token c' (-9)).
  Proof.
    intros Fw Fv Nf P Hk Hf H. inversion Fw as [|? ? F1 F2]; subst. unfold scanNumber.
    pose proof (numberLoop_spec HU fuel s false r (w ++ [46] ++ v ++ f) [] t ltac:(rewrite !app_length; cbn; lia) H) as N. rewrite (number_span_float w v f F2 Fv Nf) in N.
    destruct N as (s1 & E & H1). rewrite E. cbn [app] in H1. destruct H1 as (S1 & R1 & W1 & T1). rewrite W1. cbn [app] in P. rewrite P.
    exists s1. do 2 eexists. split; [reflexivity|]. split; [rewrite T1; now repeat split; try apply S1|].
    cbn [holds set_float set_token c_token c_float]. split; [reflexivity|]. split; [|exact T1]. destruct Hk as [-> | ->]; reflexivity.
  Qed.

  Lemma number_out fuel s c sg k r l t : sign_text sg k -> x_is_digit r = true -> (length l < fuel)%nat -> at_ s l [] t ->
    outcome (sg ++ [r]) l t (scanNumber fuel s c r k).
  Proof.
    intros Hs Hr Hf H. assert (Hk : k = 1 \/ k = -1) by (inversion Hs; auto).
    destruct (span_spec x_is_digit l) as (I1 & I2 & I3). destruct (span x_is_digit l) as [w f] eqn:Sp. cbn [fst snd] in *.
    assert (Fw : Forall (fun r => x_is_digit r = true) (r :: w)) by now constructor.
    destruct (Z.eq_dec (hd_rune f) 46) as [D|D].
    - destruct f as [|x f]; [discriminate|]. cbn in D. subst x.
      destruct (span_spec x_is_digit f) as (J1 & J2 & J3). destruct (span x_is_digit f) as [v f'] eqn:Sp2. cbn [fst snd] in *. subst f l.
      destruct (x_parse_float (encode ((r :: w) ++ [46] ++ v))) as [p|] eqn:P.
      + destruct (float_some fuel s c r w v k p f' t Fw J2 J3 P Hk ltac:(rewrite app_length in Hf; cbn in Hf; rewrite app_length in Hf; lia) H) as (s' & c' & u' & E & H1 & H2).
        exists s', c', (-9), f', u'. split; [exact E|]. split; [exact H1|]. split; [apply suffix_app, suffix_cons, suffix_app, suffix_refl|]. right.
        exists (w ++ [46] ++ v), f', (TFloat (if k =? 1 then p else f_neg p)). split; [now rewrite <- app_assoc|]. split; [|exact H2].
        replace ((sg ++ [r]) ++ w ++ [46] ++ v) with (sg ++ (r :: w) ++ [46] ++ v) by now rewrite <- app_assoc. now constructor.
      + unfold scanNumber. pose proof (numberLoop_spec HU fuel s false r _ [] t Hf H) as N.
        change (w ++ 46 :: v ++ f') with (w ++ [46] ++ v ++ f') in N. rewrite (number_span_float w v f' I2 J2 J3) in N.
        destruct N as (s1 & E & H1). rewrite E. pose proof H1 as H2. destruct H1 as (S1 & R1 & W1 & T1). rewrite W1. cbn [app] in P |- *. rewrite P.
        do 5 eexists. split; [reflexivity|]. rewrite T1. split; [exact H2|]. split; [apply suffix_app, suffix_cons, suffix_app, suffix_refl|].
        left. split; [reflexivity|]. split; [reflexivity|]. left. discriminate.
    - assert (Nf : no_start (fun x => x_is_digit x = true \/ x = 46) f) by (destruct f as [|x f]; [exact Logic.I|]; cbn in *; tauto). subst l.
      destruct (parse_int (encode (r :: w))) as [i|] eqn:P.
      + destruct (parse_digit_runes (r :: w) i ltac:(discriminate) Fw P) as (ds & E1 & E2 & E3 & E4 & E5).
        destruct (integer_some fuel s c r w k i f t Fw Nf P E5 Hk ltac:(rewrite app_length in Hf; lia) H) as (s' & c' & u' & E & H1 & H2).
        exists s', c', (-8), f, u'. split; [exact E|]. split; [exact H1|]. split; [apply suffix_app, suffix_refl|]. right.
        exists w, f, (TInteger (k * i)). split; [reflexivity|]. split; [|exact H2]. rewrite <- app_assoc. cbn [app]. rewrite E1, <- E4. constructor; auto. lia.
      + unfold scanNumber. pose proof (numberLoop_spec HU fuel s false r _ [] t Hf H) as N. rewrite (number_span_int w f I2 Nf) in N.
        destruct N as (s1 & E & H1). rewrite E. pose proof H1 as H2. destruct H1 as (S1 & R1 & W1 & T1). rewrite W1. cbn [app] in P |- *. rewrite P.
        do 5 eexists. split; [reflexivity|]. rewrite T1. split; [exact H2|]. split; [apply suffix_app, suffix_refl|].
        left. split; [reflexivity|]. split; [reflexivity|]. left. discriminate.
  Qed.

  Lemma parameter_some fuel s c r w i f t : Forall (fun r => x_is_digit r = true) (r :: w) -> no_start (fun x => x_is_digit x = true) f ->
    parse_int (encode (r :: w)) = Some i -> i <> 0 -> (length w + length f < fuel)%nat -> at_ s (w ++ f) [] t ->
    exists s' c' u', scanParameter fuel s c r = Some (s', c', -10) /\ at_ s' f u' (s_ids s') /\ holds t (TParameter i) s' (set_token c' (-10)).
  Proof.
    intros Fw Nf P Hi Hf H. inversion Fw as [|? ? F1 F2]; subst. unfold scanParameter.
    destruct (parameterLoop_spec fuel s r (w ++ f) [] t ltac:(rewrite app_length; lia) H) as (s1 & E & H1). rewrite (span_app x_is_digit w f F2 Nf) in H1.
    rewrite E. cbn [app fst snd] in H1. destruct H1 as (S1 & R1 & W1 & T1). rewrite W1, P. destruct (Z.eqb_spec i 0); [contradiction|].
    exists s1. do 2 eexists. split; [reflexivity|]. split; [rewrite T1; now repeat split; try apply S1|].
    cbn [holds set_integer set_token c_token c_integer]. now repeat split.
  Qed.

  Lemma parameter_out fuel s c r l t : x_is_digit r = true -> (length l < fuel)%nat -> at_ s l [] t ->
    outcome [36; r] l t (scanParameter fuel s c r).
  Proof.
    intros Hr Hf H.
    destruct (span_spec x_is_digit l) as (I1 & I2 & I3). destruct (span x_is_digit l) as [w f] eqn:Sp. cbn [fst snd] in *. subst l.
    assert (Fw : Forall (fun r => x_is_digit r = true) (r :: w)) by now constructor.
    assert (Err : (parse_int (encode (r :: w)) = None \/ parse_int (encode (r :: w)) = Some 0) -> outcome [36; r] (w ++ f) t (scanParameter fuel s c r)).
    { intros D. unfold scanParameter. destruct (parameterLoop_spec fuel s r (w ++ f) [] t Hf H) as (s1 & E & H1). rewrite E.
      pose proof H1 as H2. rewrite Sp in *. destruct H1 as (S1 & R1 & W1 & T1). rewrite W1. cbn [app fst snd] in *.
      destruct D as [-> | ->]; cbn [Z.eqb]; do 5 eexists; (split; [reflexivity|]); rewrite T1; (split; [exact H2|]); (split; [apply suffix_app, suffix_refl|]);
        left; (split; [reflexivity|]); (split; [reflexivity|]); left; discriminate. }
    destruct (parse_int (encode (r :: w))) as [i|] eqn:P; [|now apply Err; left].
    destruct (Z.eq_dec i 0) as [->|Ni]; [now apply Err; right|]. clear Err.
    destruct (parse_digit_runes (r :: w) i ltac:(discriminate) Fw P) as (ds & E1 & E2 & E3 & E4 & E5).
    destruct (parameter_some fuel s c r w i f t Fw I3 P Ni ltac:(rewrite app_length in Hf; lia) H) as (s' & c' & u' & E & H1 & H2).
    exists s', c', (-10), f, u'. split; [exact E|]. split; [exact H1|]. split; [apply suffix_app, suffix_refl|]. right.
    exists w, f, (TParameter i). split; [reflexivity|]. split; [|exact H2]. cbn [app]. rewrite E1, <- E4. constructor; auto. lia.
  Qed.

  (** ** Constants *)

  Lemma quote_ends_suffix f l : quote_ends f l -> suffix l f.
  Proof. intros (sp & -> & _). now exists sp. Qed.

  Lemma string_some fuel s c esc w v f l t : quoted_body esc w v -> quote_ends f l -> (length w + length f + 1 < fuel)%nat -> at_ s (w ++ [39] ++ f) [] t ->
    exists s' c' u', scanString fuel s c esc = Some (s', c', -6) /\ at_ s' l u' (s_ids s') /\ holds t (TString (encode v)) s' (set_token c' (-6)).
  Proof.
    intros Hq He Hf H. unfold scanString. destruct (quoted_some HU esc w v Hq fuel s c f l [] t Hf He H) as (s1 & E & H1). rewrite E. cbn [Z.eqb Pos.eqb].
    exists s1. do 2 eexists. split; [reflexivity|]. pose proof H1 as H2. destruct H1 as (S1 & R1 & W1 & T1). rewrite T1. split; [exact H2|].
    cbn [holds set_string set_token c_token c_string]. repeat split; assumption.
  Qed.

  Lemma string_out fuel s c esc pre l t :
    (forall w v f l', quoted_body esc w v -> quote_ends f l' -> lexeme (pre ++ w ++ [39]) (TString (encode v)) f l') ->
    (length l < fuel)%nat -> at_ s l [] t -> outcome pre l t (scanString fuel s c esc).
  Proof.
    intros Hx Hf H. unfold scanString. destruct (quoted_any HU esc fuel s c l [] t Hf H) as (s' & c' & tk & l' & u' & E & H1 & S1 & D). rewrite E.
    pose proof (at_ids_eq _ _ _ _ H1) as T1.
    destruct D as [[-> D]|(-> & -> & w & v & f & -> & D1 & D2 & D3)]; cbn [Z.eqb Pos.eqb].
    - exists s', c', (-3), l', u'. split; [reflexivity|]. rewrite T1. split; [exact H1|]. split; [exact S1|]. left. now repeat split.
    - do 5 eexists. split; [reflexivity|]. rewrite T1. split; [exact H1|]. split; [exact S1|]. right. exists (w ++ [39]), f, (TString (encode v)).
      split; [now rewrite <- app_assoc|]. split; [now apply Hx|]. cbn [holds set_string set_token c_token c_string].
      split; [reflexivity|]. split; [|exact T1]. destruct H1 as (_ & _ & -> & _). now subst u'.
  Qed.

  Lemma bytes_some fuel s c esc w v f l t : quoted_body esc w v -> quote_ends f l -> (length w + length f + 1 < fuel)%nat -> at_ s (w ++ [39] ++ f) [] t ->
    exists s' c' u', scanBytes fuel s c esc = Some (s', c', -7) /\ at_ s' l u' (s_ids s') /\ holds t (TBytes (encode v)) s' (set_token c' (-7)).
  Proof.
    intros Hq He Hf H. unfold scanBytes. destruct (quoted_some HU esc w v Hq fuel s c f l [] t Hf He H) as (s1 & E & H1). rewrite E. cbn [Z.eqb Pos.eqb].
    exists s1. do 2 eexists. split; [reflexivity|]. pose proof H1 as H2. destruct H1 as (S1 & R1 & W1 & T1). rewrite T1. split; [exact H2|].
    cbn [holds set_bytes set_token c_token c_bytes]. rewrite b_look_bytes. repeat split; assumption.
  Qed.

  Lemma bytes_out fuel s c l t : (length l < fuel)%nat -> at_ s l [] t -> outcome [98; 39] l t (scanBytes fuel s c true).
  Proof.
    intros Hf H. unfold scanBytes. destruct (quoted_any HU true fuel s c l [] t Hf H) as (s' & c' & tk & l' & u' & E & H1 & S1 & D). rewrite E.
    pose proof (at_ids_eq _ _ _ _ H1) as T1.
    destruct D as [[-> D]|(-> & -> & w & v & f & -> & D1 & D2 & D3)]; cbn [Z.eqb Pos.eqb].
    - exists s', c', (-3), l', u'. split; [reflexivity|]. rewrite T1. split; [exact H1|]. split; [exact S1|]. left. now repeat split.
    - do 5 eexists. split; [reflexivity|]. rewrite T1. split; [exact H1|]. split; [exact S1|]. right. exists (w ++ [39]), f, (TBytes (encode v)).
      split; [now rewrite <- app_assoc|]. split; [now constructor|]. cbn [holds set_bytes set_token c_token c_bytes]. rewrite b_look_bytes.
      split; [reflexivity|]. split; [reflexivity|]. split; [|exact T1]. destruct H1 as (_ & _ & -> & _). now subst u'.
  Qed.

  Lemma hex_some fuel s c w v f t : hex_body w v -> (length w + length f + 1 < fuel)%nat -> at_ s (w ++ [39] ++ f) [] t ->
    exists s' c' u', scanHexBytes fuel s c = Some (s', c', -7) /\ at_ s' f u' (s_ids s') /\ holds t (TBytes v) s' (set_token c' (-7)).
  Proof.
    intros Hq Hf H. destruct (hexbytes_some w v Hq fuel s c f [] t Hf H) as (s1 & E & H1).
    exists s1. do 2 eexists. split; [exact E|]. pose proof H1 as H2. destruct H1 as (S1 & R1 & W1 & T1). rewrite T1. split; [exact H2|].
    cbn [holds set_bytes set_token c_token c_bytes]. rewrite b_look_bytes. repeat split; assumption.
  Qed.

  Lemma hex_out fuel s c x l t : In x [120; 88] -> (length l < fuel)%nat -> at_ s l [] t -> outcome [x; 39] l t (scanHexBytes fuel s c).
  Proof.
    intros Hx Hf H. destruct (hexbytes_any fuel s c l [] t Hf H) as (s' & c' & tk & l' & u' & E & H1 & S1 & D). exists s', c', tk, l', u'. split; [exact E|].
    pose proof (at_ids_eq _ _ _ _ H1) as T1. rewrite T1. split; [exact H1|]. split; [exact S1|].
    destruct D as [[-> D]|(-> & -> & w & v & -> & D1 & D3)].
    - left. repeat split. now left.
    - right. exists (w ++ [39]), l', (TBytes v). split; [now rewrite <- app_assoc|]. split; [now constructor|]. cbn [holds set_bytes set_token c_token c_bytes]. rewrite b_look_bytes.
      split; [reflexivity|]. split; [reflexivity|]. split; [|exact T1]. destruct H1 as (_ & _ & -> & _). now subst u'.
  Qed.
End Tokens.
