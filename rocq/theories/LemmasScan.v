(** Scanning a token: sound and complete for the words of the language. *)

From Verif Require Import ModelScanner SpecScanner LemmasBase LemmasValue LemmasScanner LemmasScanText LemmasScanWords LemmasScanTokens.

Section Scan.
  Context {X : FloatLib} {L : CaseLib} {U : RuneLib} {B : BufLib}.
  Context (HU : RuneLib_scan U).

  Lemma IsOpRune_spec r : IsOpRune r = true <-> op_rune r.
  Proof.
    unfold IsOpRune, op_rune, opRunes. rewrite existsb_exists. split.
    - intros (x & I & E). apply Z.eqb_eq in E. now subst x.
    - intros I. exists r. split; [exact I|apply Z.eqb_refl].
  Qed.

  Lemma Operators_spec a b t : Operators a b = Some t <-> In (a, b, t)
      [(124, 124, -11); (60, 60, -12); (60, 61, -13); (60, 62, -14); (62, 62, -15); (62, 61, -16); (61, 61, -17); (33, 61, -18)].
  Proof.
    unfold Operators, operators. cbn [find fst snd]. split.
    - repeat (match goal with |- context [if (?x =? ?y) && _ then _ else _] =>
        destruct (Z.eqb_spec x y); try (exfalso; lia); cbn [andb option_map snd] end;
        try match goal with |- context [if ?x =? ?y then _ else _] => destruct (Z.eqb_spec x y); cbn [option_map snd] end);
        try discriminate; (let K := fresh in intros K; injection K as <-); subst; cbn; tauto.
    - cbn [In]. intros H. repeat destruct H as [H|H]; try contradiction; injection H as <- <- <-; reflexivity.
  Qed.

  (** What [scan] did before [scanToken]. *)
  Definition ready (r : Z) (l : list Z) : Prop :=
    0 <= r /\ x_is_space r = false /\ r <> 59 /\
    (r = 45 -> exists x l', l = x :: l' /\ x <> 45) /\ (r = 47 -> exists x l', l = x :: l' /\ x <> 42).

  Lemma no_quote l : hd_rune l <> 39 -> no_start (eq 39) l.
  Proof. destruct l; cbn; [easy|]. intros N E. now apply N. Qed.

  Lemma outcome_cons r pre l t o : outcome (pre ++ [r]) l t o -> outcome pre (r :: l) t o.
  Proof.
    intros (s' & c' & tk & l' & u' & E & H1 & S1 & D). exists s', c', tk, l', u'. split; [exact E|]. split; [exact H1|]. split; [now apply suffix_cons|].
    destruct D as [(-> & D1 & D2)|(w & f & v & -> & D1 & D2)].
    - left. repeat split; auto. destruct D2; [now left|right; now apply bad_escape_cons].
    - right. exists (r :: w), f, v. split; [reflexivity|]. split; [|exact D2]. now rewrite <- app_assoc in D1.
  Qed.

  Lemma outcome_rune s c r l f t tk u : at_ s f u t -> suffix f l -> (exists w, l = w ++ f /\ lexeme (r :: w) (TRune tk) f f) ->
    outcome [r] l t (Some (s, c, tk)).
  Proof.
    intros H S1 (w & -> & Hx). exists s, c, tk, f, u. split; [reflexivity|]. rewrite (at_ids_eq _ _ _ _ H). split; [exact H|]. split; [exact S1|].
    right. exists w, f, (TRune tk). split; [reflexivity|]. split; [exact Hx|]. split; [reflexivity|exact (at_ids_eq _ _ _ _ H)].
  Qed.

  Lemma outcome_error s c r l l' t u e : at_ s l' u t -> suffix l' l -> outcome [r] l t (Some (s, set_error c e, -3)).
  Proof.
    intros H S1. do 5 eexists. split; [reflexivity|]. rewrite (at_ids_eq _ _ _ _ H). split; [exact H|]. split; [exact S1|].
    left. repeat split. left. discriminate.
  Qed.

  Lemma digit_name r : x_is_digit r = true -> r <> 43 /\ r <> 45 /\ r <> 46 /\ r <> 36 /\ r <> 47 /\ r <> 59.
  Proof. intros H. repeat split; intros ->; apply (digit_ascii HU) in H; lia. Qed.

  Lemma scanToken_out fuel s c r l t : ready r l -> (length l < fuel)%nat -> at_ s l [] t -> outcome [r] l t (scanToken fuel s c r).
  Proof.
    intros (Hr & Hsp & Hend & Hm & Hd) Hf H. unfold scanToken. set (c0 := set_position _ _ _). clearbody c0.
    destruct (Z.eqb_spec r 101) as [E1|E1]; [|destruct (Z.eqb_spec r 69) as [E2|E2]]; cbn [orb].
    1,2: assert (I : In r [101; 69]) by (cbn; auto); clear E1; try clear E2;
      destruct (read_any _ _ _ _ H) as (s1 & R & H1 & H2 & Hp & Hn); rewrite R;
      (destruct (Z.eqb_spec (hd_rune l) 39) as [Q|Q];
       [ destruct l as [|q l]; [discriminate|]; cbn [hd_rune tl length] in *; subst q; apply outcome_cons, (string_out HU); [intros; now apply lx_estring|lia|exact H1]
       | apply ident_out; [|intros _; now apply no_quote|exact Hf|exact H2]; left; apply (letter_ascii HU); cbn in I; lia ]).
    destruct (Z.eqb_spec r 98) as [E3|E3].
    { destruct (read_any _ _ _ _ H) as (s1 & R & H1 & H2 & Hp & Hn). rewrite R. destruct (Z.eqb_spec (hd_rune l) 39) as [Q|Q].
      - destruct l as [|q l]; [discriminate|]. cbn [hd_rune tl length] in *. subst q r. apply outcome_cons, (bytes_out HU); [lia|exact H1].
      - apply ident_out; [|intros _; now apply no_quote|exact Hf|exact H2]. left. apply (letter_ascii HU); lia. }
    destruct (Z.eqb_spec r 120) as [E4|E4]; [|destruct (Z.eqb_spec r 88) as [E5|E5]]; cbn [orb].
    1,2: assert (I : In r [120; 88]) by (cbn; auto); clear E4; try clear E5;
      destruct (read_any _ _ _ _ H) as (s1 & R & H1 & H2 & Hp & Hn); rewrite R;
      (destruct (Z.eqb_spec (hd_rune l) 39) as [Q|Q];
       [ destruct l as [|q l]; [discriminate|]; cbn [hd_rune tl length] in *; subst q; apply outcome_cons, hex_out; [exact I|lia|exact H1]
       | apply ident_out; [|intros _; now apply no_quote|exact Hf|exact H2]; left; apply (letter_ascii HU); cbn in I; lia ]).
    destruct (x_is_letter r) eqn:Le; [|destruct (Z.eqb_spec r 95) as [E6|E6]]; cbn [orb].
    { apply ident_out; [now left| |exact Hf|exact H]. cbn [In]. intros I. exfalso. lia. }
    { apply ident_out; [now right| |exact Hf|exact H]. cbn [In]. intros I. exfalso. lia. }
    destruct (x_is_digit r) eqn:Di.
    { apply (number_out HU fuel s c0 [] 1); [constructor|exact Di|exact Hf|exact H]. }
    destruct (Z.eqb_spec r 43) as [E7|E7].
    { subst r. destruct (read_any _ _ _ _ H) as (s1 & R & H1 & H2 & Hp & Hn). rewrite R. destruct (x_is_digit (hd_rune l)) eqn:Dn.
      - destruct l as [|q l]; [cbn in Dn; rewrite (digit_neg HU) in Dn by lia; discriminate|]. cbn [hd_rune tl length] in *.
        apply outcome_cons. apply (number_out HU fuel s1 c0 [43] 1); [constructor|exact Dn|lia|exact H1].
      - eapply outcome_rune; [exact H2|apply suffix_refl|]. exists []. split; [reflexivity|]. apply lx_op.
        split; [cbn; tauto|]. split; [intros _; destruct l; [exact Logic.I|]; cbn in *; congruence|]. repeat split; intros; lia. }
    destruct (Z.eqb_spec r 45) as [E8|E8].
    { subst r. destruct (Hm eq_refl) as (x & l' & -> & Nx). destruct (read_cons _ _ _ _ _ H) as (s1 & R & H1 & H2 & Hp). rewrite R. destruct (x_is_digit x) eqn:Dn.
      - cbn [length] in *. apply outcome_cons. apply (number_out HU fuel s1 c0 [45] (-1)); [constructor|exact Dn|lia|exact H1].
      - eapply outcome_rune; [exact H2|apply suffix_refl|]. exists []. split; [reflexivity|]. apply lx_op.
        split; [cbn; tauto|]. split; [intros; lia|]. split; [intros _; split; [discriminate|]; cbn; rewrite Dn; intros [K|K]; congruence|]. split; intros; lia. }
    destruct (Z.eqb_spec r 34) as [E9|E9]; [|destruct (Z.eqb_spec r 96) as [E10|E10]]; cbn [orb].
    { subst r. apply quotedid_out; [cbn; tauto|exact Hf|exact H]. }
    { subst r. apply quotedid_out; [cbn; tauto|exact Hf|exact H]. }
    destruct (Z.eqb_spec r 91) as [E11|E11].
    { subst r. apply quotedid_out; [cbn; tauto|exact Hf|exact H]. }
    destruct (Z.eqb_spec r 39) as [E12|E12].
    { subst r. apply (string_out HU); [intros; now apply lx_string|exact Hf|exact H]. }
    destruct (IsOpRune r) eqn:Op.
    { apply IsOpRune_spec in Op. apply (at_write _ _ _ _ r) in H. destruct (read_any _ _ _ _ H) as (s1 & R & H1 & H2 & Hp & Hn). rewrite R.
      assert (Alone : (op_rune (hd_rune l) -> hd_rune l = 45 \/ hd_rune l = 43) -> outcome [r] l t (Some (unreadRune s1, c0, r))).
      { intros Ho. eapply outcome_rune; [exact H2|apply suffix_refl|]. exists []. split; [reflexivity|]. apply lx_op.
        split; [exact Op|]. split; [intros; lia|]. split; [intros; lia|]. split; [intros ->; destruct (Hd eq_refl) as (x & l' & -> & _); discriminate|].
        intros _ _. destruct l as [|x l']; [exact Logic.I|]. cbn in *. intros (K1 & K2 & K3). specialize (Ho K1). lia. }
      destruct ((hd_rune l =? 45) || (hd_rune l =? 43)) eqn:Ed.
      - apply Alone. intros _. apply Bool.orb_prop in Ed. now rewrite !Z.eqb_eq in Ed.
      - destruct (IsOpRune (hd_rune l)) eqn:Op2.
        + apply IsOpRune_spec in Op2. destruct l as [|x l]; [cbn in Op2; lia|]. cbn [hd_rune tl length] in *.
          apply (at_write _ _ _ _ x) in H1.
          destruct (Operators r x) as [r3|] eqn:Oo.
          * apply Operators_spec in Oo. eapply outcome_rune; [exact H1|apply suffix_cons, suffix_refl|].
            exists [x]. split; [reflexivity|]. now apply lx_op2.
          * eapply outcome_error; [exact H1|apply suffix_cons, suffix_refl].
        + apply Alone. intros K. apply IsOpRune_spec in K. congruence. }
    destruct ((r =? 46) || (r =? 44) || (r =? 40) || (r =? 41) || (r =? 64)) eqn:Pu.
    { eapply outcome_rune; [exact H|apply suffix_refl|]. exists []. split; [reflexivity|]. apply lx_punct.
      repeat rewrite Bool.orb_true_iff in Pu. rewrite !Z.eqb_eq in Pu. cbn. lia. }
    destruct (Z.eqb_spec r 36) as [E13|E13].
    { subst r. destruct (read_any _ _ _ _ H) as (s1 & R & H1 & H2 & Hp & Hn). rewrite R. destruct (x_is_digit (hd_rune l)) eqn:Dn; cbn [negb].
      - destruct l as [|q l]; [cbn in Dn; rewrite (digit_neg HU) in Dn by lia; discriminate|]. cbn [hd_rune tl length] in *.
        apply outcome_cons. apply (parameter_out HU); [exact Dn|lia|exact H1].
      - eapply outcome_error; [exact H1|apply suffix_tl]. }
    eapply outcome_error; [exact H|apply suffix_refl].
  Qed.

  (** ** The other direction *)

  Lemma lexeme_first w v f l : lexeme w v f l -> Forall (fun r => 0 <= r) w -> v <> TEnd -> exists r w', w = r :: w' /\ ready r (w' ++ f).
  Proof.
    assert (Sp : forall r, 0 <= r < 128 -> r <> 32 -> ~ 9 <= r <= 13 -> x_is_space r = false).
    { intros r Hr N1 N2. destruct (x_is_space r) eqn:E; [|reflexivity]. apply (space_ascii HU) in E; lia. }
    assert (Dg : forall b, digit b -> x_is_space (bz b) = false) by (unfold digit; intros b Hb; apply Sp; lia).
    assert (Rd : forall r l', 0 <= r -> x_is_space r = false -> r <> 59 -> r <> 45 -> r <> 47 -> ready r l').
    { intros r l' H1 H2 H3 H4 H5. repeat split; auto; intros; contradiction. }
    intros Hx Pw Nv. destruct Hx as [f|r w f Hn Fw Nf Hq|o d w f Ho Nd|sg k ds f Hs Nds D Hv Nf|sg k w v p f Hs Nw Fw Fv P Nf|ds f Nds D Hv Nf|w v f l Hq He|e w v f l Hi Hq He|w v f l Hq He|x w b f Hi Hb|r f Hi|r f Ho|a b t f Hi].
    - now elim Nv.
    - exists r, w. split; [reflexivity|]. destruct Hn as [Le| ->]; [|apply Rd; try lia; apply Sp; lia].
      assert (0 <= r) by now apply (letter_pos HU). destruct HU as (U1 & U2 & U3 & U4). destruct (U3 r Le) as [_ S1].
      apply Rd; auto; intros ->; apply (letter_ascii HU) in Le; lia.
    - exists o, (w ++ [d]). split; [reflexivity|]. cbn in Ho. destruct Ho as [Ho|[Ho|[Ho|[]]]]; injection Ho as <- <-; apply Rd; try lia; apply Sp; lia.
    - destruct ds as [|b ds]; [now elim Nds|]. inversion D as [|? ? D1 D2]; subst. pose proof (Dg b D1) as Sb. unfold digit in D1.
      inversion Hs; subst; cbn [app map].
      + do 2 eexists. split; [reflexivity|]. apply Rd; auto; lia.
      + do 2 eexists. split; [reflexivity|]. apply Rd; try lia; apply Sp; lia.
      + do 2 eexists. split; [reflexivity|]. repeat split; try lia; [apply Sp; lia|]. intros _. exists (bz b), (map bz ds ++ f). split; [reflexivity|lia].
    - destruct w as [|r w]; [now elim Nw|]. inversion Fw as [|? ? D1 D2]; subst. pose proof (digit_name r D1) as (Q1 & Q2 & Q3 & Q4 & Q5 & Q6).
      assert (0 <= r) by now apply (digit_pos HU). destruct HU as (U1 & U2 & U3 & U4). pose proof (U4 r D1) as Sr.
      inversion Hs; subst; cbn [app].
      + do 2 eexists. split; [reflexivity|]. apply Rd; auto; lia.
      + do 2 eexists. split; [reflexivity|]. apply Rd; try lia; apply Sp; lia.
      + do 2 eexists. split; [reflexivity|]. repeat split; try lia; [apply Sp; lia|]. intros _. do 2 eexists. split; [reflexivity|lia].
    - do 2 eexists. split; [reflexivity|]. apply Rd; try lia; apply Sp; lia.
    - do 2 eexists. split; [reflexivity|]. apply Rd; try lia; apply Sp; lia.
    - do 2 eexists. split; [reflexivity|]. cbn in Hi. destruct Hi as [<-|[<-|[]]]; apply Rd; try lia; apply Sp; lia.
    - do 2 eexists. split; [reflexivity|]. apply Rd; try lia; apply Sp; lia.
    - do 2 eexists. split; [reflexivity|]. cbn in Hi. destruct Hi as [<-|[<-|[]]]; apply Rd; try lia; apply Sp; lia.
    - do 2 eexists. split; [reflexivity|]. cbn in Hi. repeat destruct Hi as [<-|Hi]; try contradiction; apply Rd; try lia; apply Sp; lia.
    - destruct Ho as (Ho & H1 & H2 & H3 & H4). exists r, []. split; [reflexivity|]. cbn [app]. inversion Pw; subst.
      assert (x_is_space r = false) by (unfold op_rune in Ho; cbn in Ho; repeat destruct Ho as [<-|Ho]; try contradiction; apply Sp; lia).
      repeat split; auto.
      + intros ->. cbn in Ho. lia.
      + intros ->. destruct (H2 eq_refl) as [N1 N2]. destruct f as [|x f]; [now elim N1|]. exists x, f. split; [reflexivity|]. cbn in N2. tauto.
      + intros ->. specialize (H3 eq_refl). specialize (H4 ltac:(lia) ltac:(lia)). destruct f as [|x f]; [now elim H3|]. exists x, f. split; [reflexivity|].
        intros ->. apply H4. cbn. lia.
    - do 2 eexists. split; [reflexivity|]. cbn in Hi. repeat destruct Hi as [Hi|Hi]; try contradiction; injection Hi as <- <- <-; apply Rd; try lia; apply Sp; lia.
  Qed.

  Ltac sieve := repeat (match goal with |- context [Z.eqb ?a ?b] => let v := eval vm_compute in (Z.eqb a b) in change (Z.eqb a b) with v end; cbn [orb andb]).

  Lemma scanToken_some fuel s c r w f v l t : lexeme (r :: w) v f l -> v <> TEnd -> Forall (fun r => 0 <= r) (r :: w) ->
    (length w + length f + 2 < fuel)%nat -> at_ s (w ++ f) [] t ->
    exists s' c' tk u', scanToken fuel s c r = Some (s', c', tk) /\ at_ s' l u' (s_ids s') /\ holds t v s' (set_token c' tk).
  Proof.
    intros Hx Nv Pw Hf H.
    assert (Nl : forall r, 0 <= r < 128 -> ~ 65 <= r <= 90 -> ~ 97 <= r <= 122 -> x_is_letter r = false).
    { intros x Hr N1 N2. destruct (x_is_letter x) eqn:E; [|reflexivity]. apply (letter_ascii HU) in E; lia. }
    assert (Nd : forall r, 0 <= r < 128 -> ~ 48 <= r <= 57 -> x_is_digit r = false).
    { intros x Hr N1. destruct (x_is_digit x) eqn:E; [|reflexivity]. apply (digit_ascii HU) in E; lia. }
    unfold scanToken. set (c0 := set_position _ _ _). clearbody c0.
    inversion Hx as [f0|r0 w0 f0 Hn Fw Nf Hq|o d w0 f0 Ho Ndw|sg k ds f0 Hs Nds D Hv Nf Ew|sg k w0 v0 p f0 Hs Nw Fw Fv P Nf Ew|ds f0 Nds D Hv Nf|w0 v0 f0 l0 Hq He|e w0 v0 f0 l0 Hi Hq He|w0 v0 f0 l0 Hq He|x w0 b f0 Hi Hb|r0 f0 Hi|r0 f0 Ho|a b t0 f0 Hi]; subst.
    - now elim Nv.
    - (* identifiers *)
      assert (Go : forall s, at_ s (w ++ l) [] t -> exists s' c' tk u', scanIdentifier fuel s c0 r = Some (s', c', tk) /\ at_ s' l u' (s_ids s') /\
        holds t (TName (encode (r :: w)) false) s' (set_token c' tk)).
      { intros s0 H0. apply ident_some; auto. lia. }
      assert (Nq : In r [101; 69; 98; 120; 88] -> hd_rune (w ++ l) <> 39).
      { intros I. specialize (Hq I). destruct w as [|x w]; cbn [app hd_rune].
        - specialize (Hq eq_refl). destruct l as [|y l]; cbn in *; [lia|congruence].
        - inversion Fw as [|? ? F1 _]; subst. intros ->. destruct F1 as [F1|[F1|F1]]; [apply (letter_ascii HU) in F1; lia|apply (digit_ascii HU) in F1; lia|lia]. }
      destruct (read_any _ _ _ _ H) as (s1 & R & H1 & H2 & _).
      destruct (Z.eqb_spec r 101) as [E1|E1]; [|destruct (Z.eqb_spec r 69) as [E2|E2]]; cbn [orb].
      1,2: rewrite R; (destruct (Z.eqb_spec (hd_rune (w ++ l)) 39) as [Q|Q]; [elim Nq; [subst r; cbn; tauto|exact Q]|now apply Go]).
      destruct (Z.eqb_spec r 98) as [E3|E3].
      { rewrite R; (destruct (Z.eqb_spec (hd_rune (w ++ l)) 39) as [Q|Q]; [elim Nq; [subst r; cbn; tauto|exact Q]|now apply Go]). }
      destruct (Z.eqb_spec r 120) as [E4|E4]; [|destruct (Z.eqb_spec r 88) as [E5|E5]]; cbn [orb].
      1,2: rewrite R; (destruct (Z.eqb_spec (hd_rune (w ++ l)) 39) as [Q|Q]; [elim Nq; [subst r; cbn; tauto|exact Q]|now apply Go]).
      replace (x_is_letter r || (r =? 95)) with true by (destruct Hn as [-> | ->]; now rewrite ?Bool.orb_true_r). now apply Go.
    - (* quoted identifiers *)
      rewrite <- app_assoc in H. cbn [In] in Ho. rewrite app_length in Hf. cbn [length] in Hf.
      destruct (quotedid_some fuel s c0 d w0 l t Ndw ltac:(lia) H) as (s' & c' & u' & E & H1 & H2).
      destruct Ho as [Ho|[Ho|[Ho|[]]]]; injection Ho as <- <-; sieve; rewrite Nl, Nd by lia; sieve; exists s', c', (-4), u'; (split; [exact E|split; [exact H1|exact H2]]).
    - (* integers *)
      assert (Pi : parse_int (encode (map bz ds)) = Some (dec_value ds)) by (rewrite encode_bytes by exact D; now apply dec_parse).
      assert (Fd := digits_runes HU ds D). pose proof (dec_value_nonneg ds D) as Pos.
      destruct ds as [|b ds]; [now elim Nds|]. cbn [map] in *.
      assert (Fb := Fd). inversion Fb as [|? ? Db _]; subst.
      assert (Db' := Db). inversion D as [|? ? Dg _]; subst. unfold digit in Dg.
      inversion Hs; subst; cbn [app] in Ew; injection Ew as <- <-.
      + destruct (integer_some HU fuel s c0 (bz b) (map bz ds) 1 _ l t Fd Nf Pi ltac:(lia) ltac:(auto) ltac:(lia) H) as (s' & c' & u' & E & H1 & H2).
        repeat match goal with |- context [bz b =? ?k] => destruct (Z.eqb_spec (bz b) k); [lia|] end. cbn [orb]. rewrite Nl by lia. cbn [orb]. rewrite Db.
        exists s', c', (-8), u'. (split; [exact E|split; [exact H1|exact H2]]).
      + sieve. rewrite Nl, Nd by lia. sieve. cbn [app] in H. destruct (read_cons _ _ _ _ _ H) as (s1 & R & H0 & _). rewrite R, Db.
        cbn [length] in Hf.
        destruct (integer_some HU fuel s1 c0 (bz b) (map bz ds) 1 _ l t Fd Nf Pi ltac:(lia) ltac:(auto) ltac:(lia) H0) as (s' & c' & u' & E & H1 & H2).
        exists s', c', (-8), u'. (split; [exact E|split; [exact H1|exact H2]]).
      + sieve. rewrite Nl, Nd by lia. sieve. cbn [app] in H. destruct (read_cons _ _ _ _ _ H) as (s1 & R & H0 & _). rewrite R, Db.
        cbn [length] in Hf.
        destruct (integer_some HU fuel s1 c0 (bz b) (map bz ds) (-1) _ l t Fd Nf Pi ltac:(lia) ltac:(auto) ltac:(lia) H0) as (s' & c' & u' & E & H1 & H2).
        exists s', c', (-8), u'. (split; [exact E|split; [exact H1|exact H2]]).
    - (* floats *)
      destruct w0 as [|b w0]; [now elim Nw|]. assert (Fw' := Fw). inversion Fw' as [|? ? Db _]; subst.
      pose proof (digit_name b Db) as Qb. pose proof (digit_pos HU b Db) as Pb.
      inversion Hs; subst; cbn [app] in Ew; injection Ew as <- <-.
      + rewrite <- app_assoc in H. cbn [app length] in *. rewrite app_length in Hf. cbn [length] in Hf.
        rewrite <- ?app_assoc in H. 
        destruct (float_some HU fuel s c0 b w0 v0 1 p l t Fw Fv Nf P ltac:(auto) ltac:(lia) H) as (s' & c' & u' & E & H1 & H2).
        assert (Lb : x_is_letter b = false). { destruct (x_is_letter b) eqn:K; [|reflexivity]. destruct HU as (_ & _ & U3 & _). destruct (U3 b K). congruence. }
        assert (Ne : forall k, 0 <= k < 128 -> ~ 48 <= k <= 57 -> (b =? k) = false). { intros k K1 K2. apply Z.eqb_neq. intros ->. apply (digit_ascii HU) in Db; lia. }
        rewrite !Ne by lia. cbn [orb]. rewrite Lb, Db. cbn [orb]. exists s', c', (-9), u'. (split; [exact E|split; [exact H1|exact H2]]).
      + sieve. rewrite Nl, Nd by lia. sieve. cbn [app length] in *. destruct (read_cons _ _ _ _ _ H) as (s1 & R & H0 & _). rewrite R, Db.
        rewrite <- ?app_assoc in H0. rewrite app_length in Hf. cbn [length app] in *.
        destruct (float_some HU fuel s1 c0 b w0 v0 1 p l t Fw Fv Nf P ltac:(auto) ltac:(lia) H0) as (s' & c' & u' & E & H1 & H2).
        exists s', c', (-9), u'. (split; [exact E|split; [exact H1|exact H2]]).
      + sieve. rewrite Nl, Nd by lia. sieve. cbn [app length] in *. destruct (read_cons _ _ _ _ _ H) as (s1 & R & H0 & _). rewrite R, Db.
        rewrite <- ?app_assoc in H0. rewrite app_length in Hf. cbn [length app] in *.
        destruct (float_some HU fuel s1 c0 b w0 v0 (-1) p l t Fw Fv Nf P ltac:(auto) ltac:(lia) H0) as (s' & c' & u' & E & H1 & H2).
        exists s', c', (-9), u'. (split; [exact E|split; [exact H1|exact H2]]).
    - (* parameters *)
      sieve. rewrite Nl, Nd by lia. sieve. change (IsOpRune 36) with false. cbv match.
      assert (Pi : parse_int (encode (map bz ds)) = Some (dec_value ds)) by (rewrite encode_bytes by exact D; now apply dec_parse).
      assert (Fd := digits_runes HU ds D). destruct ds as [|b ds]; [now elim Nds|]. cbn [map app length] in *. assert (Fb := Fd). inversion Fb as [|? ? Db _]; subst.
      destruct (read_cons _ _ _ _ _ H) as (s1 & R & H0 & _). rewrite R, Db. cbn [negb].
      destruct (parameter_some fuel s1 c0 (bz b) (map bz ds) _ l t Fd Nf Pi ltac:(lia) ltac:(lia) H0) as (s' & c' & u' & E & H1 & H2).
      exists s', c', (-10), u'. (split; [exact E|split; [exact H1|exact H2]]).
    - (* strings *)
      sieve. rewrite Nl, Nd by lia. sieve. rewrite <- app_assoc in H. rewrite app_length in Hf. cbn [length] in Hf.
      destruct (string_some HU fuel s c0 false w0 v0 f l t Hq He ltac:(lia) H) as (s' & c' & u' & E & H1 & H2).
      exists s', c', (-6), u'. (split; [exact E|split; [exact H1|exact H2]]).
    - cbn [In] in Hi. cbn [app length] in *. destruct (read_cons _ _ _ _ _ H) as (s1 & R & H0 & _). rewrite <- app_assoc in H0. rewrite app_length in Hf. cbn [length] in Hf.
      destruct (string_some HU fuel s1 c0 true w0 v0 f l t Hq He ltac:(lia) H0) as (s' & c' & u' & E & H1 & H2).
      destruct Hi as [<-|[<-|[]]]; sieve; rewrite R; sieve; exists s', c', (-6), u'; (split; [exact E|split; [exact H1|exact H2]]).
    - cbn [app length] in *. destruct (read_cons _ _ _ _ _ H) as (s1 & R & H0 & _). rewrite <- app_assoc in H0. rewrite app_length in Hf. cbn [length] in Hf.
      destruct (bytes_some HU fuel s1 c0 true w0 v0 f l t Hq He ltac:(lia) H0) as (s' & c' & u' & E & H1 & H2).
      sieve; rewrite R; sieve; exists s', c', (-7), u'; (split; [exact E|split; [exact H1|exact H2]]).
    - cbn [In] in Hi. cbn [app length] in *. destruct (read_cons _ _ _ _ _ H) as (s1 & R & H0 & _). rewrite <- app_assoc in H0. rewrite app_length in Hf. cbn [length] in Hf.
      destruct (hex_some fuel s1 c0 w0 b l t Hb ltac:(lia) H0) as (s' & c' & u' & E & H1 & H2).
      destruct Hi as [<-|[<-|[]]]; sieve; rewrite R; sieve; exists s', c', (-7), u'; (split; [exact E|split; [exact H1|exact H2]]).
    - cbn [In] in Hi. cbn [app] in H. exists s, c0, r, []. split; [|split; [rewrite (at_ids_eq _ _ _ _ H); exact H|split; [reflexivity|now apply (at_ids_eq _ _ _ _ H)]]].
      repeat destruct Hi as [<-|Hi]; try contradiction; sieve; rewrite Nl, Nd by lia; sieve; reflexivity.
    - destruct Ho as (Ho & O1 & O2 & O3 & O4). cbn [app] in H.
      assert (Lr : x_is_letter r = false /\ x_is_digit r = false).
      { unfold op_rune in Ho. cbn in Ho. repeat destruct Ho as [<-|Ho]; try contradiction; (split; [apply Nl|apply Nd]); lia. }
      destruct Lr as [L1 L2].
      assert (Nr : forall k, ~ In k [45; 43; 42; 47; 37; 61; 60; 62; 38; 124; 33] -> (r =? k) = false).
      { intros k Hk. apply Z.eqb_neq. intros ->. contradiction. }
      rewrite (Nr 101), (Nr 69), (Nr 98), (Nr 120), (Nr 88), (Nr 95), L1, L2 by (cbn; lia). cbn [orb].
      destruct (Z.eqb_spec r 43) as [->|N43].
      { destruct (read_any _ _ _ _ H) as (s1 & R & H1 & H2 & _). rewrite R.
        assert (x_is_digit (hd_rune l) = false) as ->. { specialize (O1 eq_refl). destruct l as [|x l]; cbn in *; [now apply (digit_neg HU); lia|]. now destruct (x_is_digit x); [elim O1|]. }
        exists (unreadRune s1), c0, 43, []. split; [reflexivity|]. split; [rewrite (at_ids_eq _ _ _ _ H2); exact H2|]. split; [reflexivity|now apply (at_ids_eq _ _ _ _ H2)]. }
      destruct (Z.eqb_spec r 45) as [->|N45].
      { destruct (read_any _ _ _ _ H) as (s1 & R & H1 & H2 & _). rewrite R.
        assert (x_is_digit (hd_rune l) = false) as ->. { destruct (O2 eq_refl) as [Q1 Q2]. destruct l as [|x l]; cbn in *; [now elim Q1|]. destruct (x_is_digit x); [elim Q2; now left|reflexivity]. }
        exists (unreadRune s1), c0, 45, []. split; [reflexivity|]. split; [rewrite (at_ids_eq _ _ _ _ H2); exact H2|]. split; [reflexivity|now apply (at_ids_eq _ _ _ _ H2)]. }
      rewrite (Nr 34), (Nr 96), (Nr 91), (Nr 39) by (cbn; lia). cbn [orb].
      rewrite (proj2 (IsOpRune_spec r) Ho). apply (at_write _ _ _ _ r) in H. destruct (read_any _ _ _ _ H) as (s1 & R & H1 & H2 & Hp & _). rewrite R.
      assert (Last : exists s' c' tk u', Some (unreadRune s1, c0, r) = Some (s', c', tk) /\ at_ s' l u' (s_ids s') /\ holds t (TRune r) s' (set_token c' tk)).
      { do 4 eexists. split; [reflexivity|]. rewrite (at_ids_eq _ _ _ _ H2). split; [exact H2|]. split; [reflexivity|now apply (at_ids_eq _ _ _ _ H2)]. }
      destruct ((hd_rune l =? 45) || (hd_rune l =? 43)) eqn:Ed; [exact Last|].
      destruct (IsOpRune (hd_rune l)) eqn:Oh; [|exact Last]. exfalso. apply IsOpRune_spec in Oh. apply Bool.orb_false_iff in Ed. rewrite !Z.eqb_neq in Ed.
      specialize (O4 N43 N45). destruct l as [|x l]; cbn in *; [lia|]. apply O4. tauto.
    - apply Operators_spec in Hi as Ho. cbn [In] in Hi. cbn [app] in H.
      assert (Op : op_rune r /\ op_rune b /\ (b =? 45) || (b =? 43) = false /\ r <> 43 /\ r <> 45).
      { unfold op_rune. cbn. repeat destruct Hi as [Hi|Hi]; try contradiction; injection Hi as <- <- <-; cbn; lia. }
      destruct Op as (P1 & P2 & P3 & P4 & P5).
      assert (Lr : x_is_letter r = false /\ x_is_digit r = false).
      { unfold op_rune in P1. cbn in P1. repeat destruct P1 as [<-|P1]; try contradiction; (split; [apply Nl|apply Nd]); lia. }
      destruct Lr as [L1 L2].
      assert (Nr : forall k, ~ In k [45; 43; 42; 47; 37; 61; 60; 62; 38; 124; 33] -> (r =? k) = false).
      { intros k Hk. apply Z.eqb_neq. intros ->. contradiction. }
      rewrite (Nr 101), (Nr 69), (Nr 98), (Nr 120), (Nr 88), (Nr 95), L1, L2 by (cbn; lia). cbn [orb].
      destruct (Z.eqb_spec r 43); [contradiction|]. destruct (Z.eqb_spec r 45); [contradiction|].
      rewrite (Nr 34), (Nr 96), (Nr 91), (Nr 39) by (cbn; lia). cbn [orb].
      rewrite (proj2 (IsOpRune_spec r) P1). apply (at_write _ _ _ _ r) in H. destruct (read_cons _ _ _ _ _ H) as (s1 & R & H1 & H2 & Hp). rewrite R, P3, (proj2 (IsOpRune_spec b) P2), Ho.
      apply (at_write _ _ _ _ b) in H1. do 4 eexists. split; [reflexivity|]. rewrite (at_ids_eq _ _ _ _ H1). split; [exact H1|]. split; [reflexivity|now apply (at_ids_eq _ _ _ _ H1)].
  Qed.
End Scan.
