(** The values and rows that tests write as text. *)

From Verif Require Import SpecTestutil LemmasBase LemmasValue LemmasScanner LemmasPieces LemmasScanTokens LemmasPrint.
From Coq Require Import Lia.

Section Parse.
  Context {X : FloatLib} {L : CaseLib} {U : RuneLib}.
  Hypothesis HU : RuneLib_scan U.

  Lemma digit_ascii r : 0 <= r < 128 -> x_is_digit r = true <-> 48 <= r <= 57.
  Proof. intros H. apply HU, H. Qed.
  Lemma letter_ascii r : 0 <= r < 128 -> x_is_letter r = true <-> 65 <= r <= 90 \/ 97 <= r <= 122.
  Proof. intros H. apply HU, H. Qed.
  Lemma space_ascii r : 0 <= r < 128 -> x_is_space r = true <-> r = 32 \/ 9 <= r <= 13.
  Proof. intros H. apply HU, H. Qed.
  Lemma not_true b : b <> true -> b = false. Proof. now destruct b. Qed.

  (** ** Blanks *)

  Lemma skip_spaces sp : spaces sp -> forall r l, x_is_space r = false -> skipLoop (sp ++ r :: l) = (Some r, {| r_ahead := l; r_last := Some r |}).
  Proof. induction 1 as [|s sp E _ IH]; intros r l H; cbn [app skipLoop]; [now rewrite H|rewrite E; now apply IH]. Qed.
  Lemma skip_end sp : spaces sp -> skipLoop sp = (None, {| r_ahead := []; r_last := None |}).
  Proof. induction 1 as [|s sp E _ IH]; cbn [skipLoop]; [reflexivity|now rewrite E]. Qed.
  Lemma skip_sound l : match skipLoop l with
    | (None, rs) => spaces l /\ rs = {| r_ahead := []; r_last := None |}
    | (Some r, rs) => exists sp, l = sp ++ r :: r_ahead rs /\ spaces sp /\ x_is_space r = false /\ r_last rs = Some r end.
  Proof.
    induction l as [|r l IH]; cbn [skipLoop]; [split; [constructor|reflexivity]|]. destruct (x_is_space r) eqn:E.
    - destruct (skipLoop l) as [[s|] rs].
      + destruct IH as (sp & -> & S1 & N & La). exists (r :: sp). repeat split; auto. now constructor.
      + destruct IH as [S1 ->]. split; [now constructor|reflexivity].
    - exists []. repeat split; auto. constructor.
  Qed.

  Lemma skipTo_spaces sp r l la : spaces sp -> x_is_space r = false -> skipTo {| r_ahead := sp ++ r :: l; r_last := la |} = Some (r, {| r_ahead := l; r_last := Some r |}).
  Proof. intros S1 H. unfold skipTo. cbn [r_ahead]. now rewrite skip_spaces. Qed.
  Lemma skipTo_sound rs r rs' : skipTo rs = Some (r, rs') -> exists sp, r_ahead rs = sp ++ r :: r_ahead rs' /\ spaces sp /\ x_is_space r = false /\ r_last rs' = Some r.
  Proof.
    unfold skipTo. pose proof (skip_sound (r_ahead rs)) as H. destruct (skipLoop (r_ahead rs)) as [[s|] rs1]; [|discriminate]. now intros [= <- <-].
  Qed.
  Lemma expect_spaces sp r l la b : spaces sp -> x_is_space r = false ->
    expectRune {| r_ahead := sp ++ r :: l; r_last := la |} r b = Some (false, {| r_ahead := l; r_last := Some r |}).
  Proof. intros S1 H. unfold expectRune, ModelTestutil.skipWhitespace. cbn [r_ahead].
  rewrite skip_spaces by assumption. now rewrite Z.eqb_refl. Qed.
  Lemma expect_end sp r la : spaces sp -> expectRune {| r_ahead := sp; r_last := la |} r true = Some (true, {| r_ahead := []; r_last := None |}).
  Proof. intros S1. unfold expectRune, ModelTestutil.skipWhitespace. cbn [r_ahead]. now rewrite skip_end. Qed.
  Lemma expect_sound rs r b e rs' : expectRune rs r b = Some (e, rs') ->
    (e = false /\ exists sp, r_ahead rs = sp ++ r :: r_ahead rs' /\ spaces sp /\ r_last rs' = Some r) \/
    (b = true /\ e = true /\ spaces (r_ahead rs)).
  Proof.
    unfold expectRune, ModelTestutil.skipWhitespace. pose proof (skip_sound (r_ahead rs)) as H. destruct (skipLoop (r_ahead rs)) as [[s|] rs1].
    - destruct (Z.eqb_spec s r); [|discriminate]. subst s. intros [= <- <-]. left. split; [reflexivity|]. destruct H as (sp & E & S1 & _ & La). eauto.
    - destruct b; [|discriminate]. intros [= <- <-]. right. now destruct H.
  Qed.

  (** ** Runs of runes *)

  Lemma read_run pred w : Forall (fun r => pred r = true) w -> forall b f, match f with [] => b = true | r :: _ => pred r = false end ->
    exists la, readLoop (w ++ f) b pred = Some (encode w, {| r_ahead := f; r_last := la |}).
  Proof.
    induction 1 as [|r w E _ IH]; intros b f H; cbn [app].
    - destruct f as [|r f]; cbn [readLoop]; [subst b|rewrite H]; eexists; reflexivity.
    - cbn [readLoop]. rewrite E. destruct (IH b f H) as [la ->]. eexists. reflexivity.
  Qed.
  Lemma read_sound pred b l : forall s rs, readLoop l b pred = Some (s, rs) ->
    exists w, l = w ++ r_ahead rs /\ s = encode w /\ Forall (fun r => pred r = true) w /\ match r_ahead rs with [] => b = true | r :: _ => pred r = false end.
  Proof.
    induction l as [|r l IH]; intros s rs; cbn [readLoop].
    - destruct b; [|discriminate]. intros [= <- <-]. exists []. repeat split. constructor.
    - destruct (pred r) eqn:E.
      + destruct (readLoop l b pred) as [[s1 rs1]|]; [|discriminate]. intros [= <- <-]. destruct (IH _ _ eq_refl) as (w & -> & -> & F & N).
        exists (r :: w). repeat split; [now constructor|exact N].
      + intros [= <- <-]. exists []. repeat split; [constructor|exact E].
  Qed.

  (** ** Bytes *)

  Lemma nibble_value c : nibble c (hexValue c).
  Proof.
    unfold hexValue. cbv zeta. pose proof (bz_range c) as Hc. destruct (Z.leb_spec 48 (bz c)), (Z.leb_spec (bz c) 57); cbn [andb];
      try (rewrite Z.mod_small by lia; apply nb_digit; lia);
      (destruct (Z.leb_spec 97 (bz c)), (Z.leb_spec (bz c) 102); cbn [andb]; try (rewrite (Z.mod_small (bz c - 97 + 10)) by lia; apply nb_lower; lia); apply nb_other; lia).
  Qed.
  Lemma nibble_unique c h : nibble c h -> h = hexValue c.
  Proof.
    pose proof (bz_range c) as Hc. unfold hexValue. cbv zeta. intros H. inversion H; subst;
      destruct (Z.leb_spec 48 (bz c)), (Z.leb_spec (bz c) 57); cbn [andb]; try lia; try (rewrite Z.mod_small; lia);
      (destruct (Z.leb_spec 97 (bz c)), (Z.leb_spec (bz c) 102); cbn [andb]; try lia; try (rewrite Z.mod_small; lia); reflexivity).
  Qed.
  Lemma hexValue_range c : 0 <= hexValue c < 256.
  Proof. unfold hexValue. cbv zeta. repeat destruct (_ && _); apply Z.mod_pos_bound; lia. Qed.
  Lemma lor_byte a b : 0 <= a < 256 -> 0 <= b < 256 -> 0 <= Z.lor a b < 256.
  Proof.
    intros Ha Hb. split; [apply Z.lor_nonneg; lia|]. destruct (Z.eq_dec (Z.lor a b) 0) as [->|N]; [lia|].
    change 256 with (2 ^ 8). apply Z.log2_lt_pow2; [pose proof (proj2 (Z.lor_nonneg a b) ltac:(lia)); lia|]. rewrite Z.log2_lor by lia.
    apply Z.max_lub_lt; [destruct (Z.eq_dec a 0) as [->|]; [cbn; lia|apply Z.log2_lt_pow2; cbn; lia]|destruct (Z.eq_dec b 0) as [->|]; [cbn; lia|apply Z.log2_lt_pow2; cbn; lia]].
  Qed.
  Lemma hex_byte a b : bz (zb (Z.lor ((hexValue a * 16) mod 256) (hexValue b))) = Z.lor ((16 * hexValue a) mod 256) (hexValue b).
  Proof.
    rewrite bz_zb, (Z.mul_comm 16). apply Z.mod_small, lor_byte; [apply Z.mod_pos_bound; lia|apply hexValue_range].
  Qed.
  Lemma hex_pairs s b : pairs s b <-> Z.of_nat (length s) mod 2 = 0 /\ b = hexLoop s.
  Proof.
    split.
    - induction 1 as [|x y h l s c v Hh Hl E _ [IH1 ->]]; [split; reflexivity|]. split; [cbn [length]; rewrite !Nat2Z.inj_succ; revert IH1; Z.to_euclidean_division_equations; lia|].
      cbn [hexLoop]. f_equal. apply nibble_unique in Hh. apply nibble_unique in Hl. subst. rewrite <- hex_byte in E. apply (f_equal zb) in E. now rewrite !zb_bz in E.
    - intros [H ->]. revert H. assert (G : forall n s, (length s <= n)%nat -> Z.of_nat (length s) mod 2 = 0 -> pairs s (hexLoop s)); [|now apply (G (length s))].
      clear s. induction n as [|n IH]; intros [|x [|y s]] Hn H; cbn [length] in *; try lia; try constructor; try (cbn in H; lia).
      cbn [hexLoop]. apply (pr_cons _ _ (hexValue x) (hexValue y)); [apply nibble_value|apply nibble_value|apply hex_byte|].
      apply IH; [lia|]. rewrite !Nat2Z.inj_succ in H. revert H. Z.to_euclidean_division_equations; lia.
  Qed.

  (** ** Values *)

  Definition number_b (r : Z) : bool := x_is_digit r || (r =? 46).
  Lemma number_iff r : number_b r = true <-> number_rune r.
  Proof. unfold number_b, number_rune. rewrite orb_true_iff, Z.eqb_eq. reflexivity. Qed.
  Lemma number_run w : Forall (fun r => number_b r = true) w <-> Forall number_rune w.
  Proof. rewrite !Forall_forall. split; intros H x K; apply number_iff, H, K. Qed.
  Lemma quote_run w : Forall (fun r => negb (r =? 39) = true) w <-> no_quote w.
  Proof. unfold no_quote. rewrite !Forall_forall. split; intros H x K; specialize (H x K); cbv beta in *; [intros ->; discriminate|apply negb_true_iff, Z.eqb_neq, H]. Qed.
  Lemma number_visible r : number_rune r -> x_is_space r = false.
  Proof. destruct HU as (A & _ & _ & D). intros [H| ->]; [now apply D|]. apply not_true. rewrite space_ascii by lia. lia. Qed.
  Lemma letter_visible r : letter_rune r -> x_is_space r = false.
  Proof. destruct HU as (A & _ & C & D). intros H. now apply C. Qed.
  Lemma letter_not_number r : letter_rune r -> number_b r = false.
  Proof.
    destruct HU as (A & _ & C & D). intros H. apply not_true. rewrite number_iff. intros [K| ->]; [apply C in H; destruct H; congruence|].
    unfold letter_rune in H. rewrite letter_ascii in H by lia. lia.
  Qed.
  Lemma quote_class : x_is_space 39 = false /\ number_b 39 = false /\ x_is_letter 39 = false.
  Proof.
    repeat split; apply not_true; [rewrite space_ascii by lia|rewrite number_iff; intros [K|K]; [rewrite digit_ascii in K by lia|]|rewrite letter_ascii by lia]; lia.
  Qed.

  Lemma parse_none s : parse_int s = None <-> forall i, int_text s i -> ~ is_i64 i.
  Proof.
    split.
    - intros E i H1 H2. assert (K : parse_int s = Some i) by now apply parse_int_spec. congruence.
    - intros H. destruct (parse_int s) as [i|] eqn:E; [|reflexivity]. apply parse_int_spec in E as [E1 E2]. now destruct (H i E1).
  Qed.

  (** The string of [readRunes] that starts with a rune that is not 0. *)
  Lemma runes_complete r w pred b f la : r <> 0 -> Forall (fun r => pred r = true) w -> match f with [] => b = true | r :: _ => pred r = false end ->
    exists la', readRunes {| r_ahead := w ++ f; r_last := la |} r b pred = Some (encode (r :: w), {| r_ahead := f; r_last := la' |}).
  Proof.
    intros N F E. destruct (read_run pred w F b f E) as [la' K]. exists la'. unfold readRunes. cbn [r_ahead]. rewrite K. now rewrite (proj2 (Z.eqb_neq r 0) N).
  Qed.
  Lemma runes_sound r rs pred b s rs' : r <> 0 -> readRunes rs r b pred = Some (s, rs') ->
    exists w, r_ahead rs = w ++ r_ahead rs' /\ s = encode (r :: w) /\ Forall (fun r => pred r = true) w /\ match r_ahead rs' with [] => b = true | r :: _ => pred r = false end.
  Proof.
    intros N. unfold readRunes. destruct (readLoop (r_ahead rs) b pred) as [[s1 rs1]|] eqn:E; [|discriminate]. intros [= <- <-].
    apply read_sound in E as (w & E1 & -> & F & K). exists w. rewrite (proj2 (Z.eqb_neq r 0) N). auto.
  Qed.
  Lemma number_nonzero r : number_rune r -> r <> 0.
  Proof. intros [H|H] ->; [|discriminate]. rewrite digit_ascii in H by lia. lia. Qed.
  Lemma letter_nonzero r : letter_rune r -> r <> 0.
  Proof. intros H ->. unfold letter_rune in H. rewrite letter_ascii in H by lia. lia. Qed.

  Lemma value_complete w v : value_text w v -> forall sp f la, spaces sp -> ends_value v f ->
    exists la', parseValue {| r_ahead := sp ++ w ++ f; r_last := la |} = Some (v, {| r_ahead := f; r_last := la' |}).
  Proof.
    destruct quote_class as (Q1 & Q2 & Q3).
    assert (Num : forall w, w <> [] -> Forall number_rune w -> forall sp f la, spaces sp -> match f with [] => True | r :: _ => ~ number_rune r end ->
      exists la', parseValue {| r_ahead := sp ++ w ++ f; r_last := la |} =
        match parse_int (encode w) with Some i => Some (VInt i, {| r_ahead := f; r_last := la' |})
        | None => match x_parse_float (encode w) with Some p => Some (VFloat p, {| r_ahead := f; r_last := la' |}) | None => None end end).
    { intros [|r w0] N F sp f la S1 E; [contradiction|]. inversion F as [|? ? Hr F']; subst.
      destruct (runes_complete r w0 number_b true f (Some r)) as [la' K]; [now apply number_nonzero|now apply number_run|destruct f as [|r1 f]; [reflexivity|apply not_true; now rewrite number_iff]|].
      exists la'. unfold parseValue. cbn [app]. rewrite skipTo_spaces by (auto; now apply number_visible). rewrite (proj2 (number_iff r) Hr : x_is_digit r || (r =? 46) = true).
      change (fun r => x_is_digit r || (r =? 46)) with number_b. rewrite K. reflexivity. }
    assert (Wd : forall w, w <> [] -> Forall letter_rune w -> forall sp f la, spaces sp -> match f with [] => True | r :: _ => ~ letter_rune r end ->
      exists la', parseValue {| r_ahead := sp ++ w ++ f; r_last := la |} =
        (if bytes_eqb (x_to_lower (encode w)) (str "true") then Some (VBool true, {| r_ahead := f; r_last := la' |})
         else if bytes_eqb (x_to_lower (encode w)) (str "false") then Some (VBool false, {| r_ahead := f; r_last := la' |})
         else if bytes_eqb (x_to_lower (encode w)) (str "null") then Some (VNull, {| r_ahead := f; r_last := la' |}) else None)).
    { intros [|r w0] N F sp f la S1 E; [contradiction|]. inversion F as [|? ? Hr F']; subst.
      destruct (runes_complete r w0 x_is_letter true f (Some r)) as [la' K]; [now apply letter_nonzero|exact F'|destruct f as [|r1 f]; [reflexivity|now apply not_true]|].
      exists la'. unfold parseValue. cbn [app]. rewrite skipTo_spaces by (auto; now apply letter_visible). rewrite (letter_not_number r Hr : x_is_digit r || (r =? 46) = false).
      rewrite (Hr : x_is_letter r = true). rewrite K. reflexivity. }
    assert (Qs : forall sp w la, spaces sp -> parseValue {| r_ahead := sp ++ 39 :: w; r_last := la |} =
      match readOne {| r_ahead := w; r_last := Some 39 |} with
      | None => None
      | Some (r, rs) =>
              if r =? 92 then
                match readOne rs with
                | None => None
                | Some (r, rs) =>
                    if negb (r =? 120) && negb (r =? 88) then None
                    else
                      match readRunes rs 0 false (fun r => negb (r =? 39)) with
                      | None => None
                      | Some (s, rs) =>
                          let rs := snd (readRune_ rs) in
                          if negb (Z.of_nat (length s) mod 2 =? 0) then None
                          else Some (VBytes (hexLoop s), rs)
                      end
                end
              else if r =? 39 then Some (VString [], rs)
              else
                match readRunes rs r false (fun r => negb (r =? 39)) with
                | None => None
                | Some (s, rs) => Some (VString s, snd (readRune_ rs))
                end
          end).
    { intros sp w0 la S1. unfold parseValue. rewrite skipTo_spaces by assumption. rewrite (Q2 : x_is_digit 39 || (39 =? 46) = false), Q3. reflexivity. }
    assert (Qr : forall w0 f, no_quote w0 -> exists la', readLoop (w0 ++ 39 :: f) false (fun r => negb (r =? 39)) = Some (encode w0, {| r_ahead := 39 :: f; r_last := la' |})).
    { intros w0 f N. apply read_run; [now apply quote_run|reflexivity]. }
    intros H sp f la S1 E. destruct H as [w i N F T I|w p N F T Ep|w b N F T|w N F T| |r w N1 N2 N3 N4|w N4|x w b Hx N4 Hp].
    - destruct (Num w N F sp f la S1) as [la' ->]; [now destruct f|]. exists la'. now rewrite (proj2 (parse_int_spec (encode w) i) (conj T I)).
    - destruct (Num w N F sp f la S1) as [la' ->]; [now destruct f|]. exists la'. rewrite (proj2 (parse_none (encode w)) T). now rewrite Ep.
    - destruct (Wd w N F sp f la S1) as [la' ->]; [now destruct f|]. exists la'. rewrite T. destruct b; reflexivity.
    - destruct (Wd w N F sp f la S1) as [la' ->]; [now destruct f|]. exists la'. rewrite T. reflexivity.
    - eexists. cbn [app]. rewrite Qs by assumption. reflexivity.
    - destruct (Qr w f N4) as [la' K]. eexists. cbn [app]. rewrite Qs by assumption. rewrite <- app_assoc. cbn [app]. unfold readOne. cbn [readRune_ r_ahead].
      rewrite (proj2 (Z.eqb_neq r 92) N2), (proj2 (Z.eqb_neq r 39) N1). unfold readRunes. cbn [r_ahead]. rewrite K, (proj2 (Z.eqb_neq r 0) N3). reflexivity.
    - destruct (Qr w f N4) as [la' K]. eexists. cbn [app]. rewrite Qs by assumption. rewrite <- app_assoc. cbn [app]. unfold readOne. cbn [readRune_ r_ahead].
      cbn [Z.eqb]. unfold readRunes. cbn [r_ahead]. rewrite K. reflexivity.
    - destruct (Qr w f N4) as [la' K]. eexists. cbn [app]. rewrite Qs by assumption. rewrite <- app_assoc. cbn [app]. unfold readOne. cbn [readRune_ r_ahead].
      rewrite Z.eqb_refl. assert (Ex : negb (x =? 120) && negb (x =? 88) = false) by (destruct Hx as [<-|[<-|[]]]; reflexivity). rewrite Ex. unfold readRunes. cbn [r_ahead]. rewrite K.
      apply hex_pairs in Hp as [Hl ->]. cbn [Z.eqb app]. cbv zeta. rewrite Hl. reflexivity.
  Qed.

  Lemma value_sound rs v rs' : parseValue rs = Some (v, rs') -> exists sp w, r_ahead rs = sp ++ w ++ r_ahead rs' /\ spaces sp /\ value_text w v /\ ends_value v (r_ahead rs').
  Proof.
    unfold parseValue. destruct (skipTo rs) as [[r rs1]|] eqn:E1; [|discriminate]. apply skipTo_sound in E1 as (sp & E1 & S1 & Sr & La).
    fold (number_b r). change (fun r => x_is_digit r || (r =? 46)) with number_b.
    destruct (number_b r) eqn:Nr.
    { apply number_iff in Nr. destruct (readRunes rs1 r true number_b) as [[s rs2]|] eqn:E2; [|discriminate].
      apply runes_sound in E2 as (w & E2 & -> & F & N); [|now apply number_nonzero]. apply number_run in F.
      assert (En : match r_ahead rs2 with [] => True | r :: _ => ~ number_rune r end) by (destruct (r_ahead rs2); [exact Logic.I|rewrite <- number_iff, N; discriminate]).
      destruct (parse_int (encode (r :: w))) as [i|] eqn:Ei.
      - intros [= <- <-]. apply parse_int_spec in Ei as [Ei Hi]. exists sp, (r :: w). split; [now rewrite E1, E2|]. split; [exact S1|]. split; [|exact En]. constructor; [discriminate|now constructor|exact Ei|exact Hi].
      - destruct (x_parse_float (encode (r :: w))) as [p|] eqn:Ep; [|discriminate]. intros [= <- <-]. exists sp, (r :: w). split; [now rewrite E1, E2|]. split; [exact S1|]. split; [|exact En].
        constructor; [discriminate|now constructor|now apply parse_none|exact Ep]. }
    destruct (x_is_letter r) eqn:Lr.
    { destruct (readRunes rs1 r true x_is_letter) as [[s rs2]|] eqn:E2; [|discriminate].
      apply runes_sound in E2 as (w & E2 & -> & F & N); [|now apply letter_nonzero].
      assert (En : match r_ahead rs2 with [] => True | r :: _ => ~ letter_rune r end) by (destruct (r_ahead rs2); [exact Logic.I|unfold letter_rune; rewrite N; discriminate]).
      cbv zeta. assert (Fw : Forall letter_rune (r :: w)) by now constructor. assert (Ew : r_ahead rs = sp ++ (r :: w) ++ r_ahead rs2) by now rewrite E1, E2.
      destruct (bytes_eqb (x_to_lower (encode (r :: w))) (str "true")) eqn:E; [apply bytes_eqb_eq in E; intros [= <- <-]; exists sp, (r :: w); repeat (split; [assumption|]); split; [|exact En]; constructor; [discriminate|assumption..]|clear E].
      destruct (bytes_eqb (x_to_lower (encode (r :: w))) (str "false")) eqn:E; [apply bytes_eqb_eq in E; intros [= <- <-]; exists sp, (r :: w); repeat (split; [assumption|]); split; [|exact En]; constructor; [discriminate|assumption..]|clear E].
      destruct (bytes_eqb (x_to_lower (encode (r :: w))) (str "null")) eqn:E; [apply bytes_eqb_eq in E; intros [= <- <-]; exists sp, (r :: w); repeat (split; [assumption|]); split; [|exact En]; constructor; [discriminate|assumption..]|discriminate]. }
    destruct (Z.eqb_spec r 39) as [->|]; cbn [negb]; [|discriminate].
    unfold readOne at 1. unfold readRune_ at 1. destruct (r_ahead rs1) as [|r rest1] eqn:A1; [discriminate|].
    assert (Close : forall (s : bytes) rs2 l, readLoop l false (fun r => negb (r =? 39)) = Some (s, rs2) ->
      exists w, l = w ++ 39 :: r_ahead (snd (readRune_ rs2)) /\ s = encode w /\ no_quote w).
    { intros s rs2 l K. apply read_sound in K as (w & -> & -> & F & N). apply quote_run in F. exists w. unfold readRune_. destruct (r_ahead rs2) as [|q l2]; [discriminate|].
      apply negb_false_iff, Z.eqb_eq in N. subst q. auto. }
    destruct (Z.eqb_spec r 92) as [->|N92].
    { unfold readOne, readRune_ at 1. cbn [r_ahead]. destruct rest1 as [|x rest1]; [discriminate|].
      destruct (negb (x =? 120) && negb (x =? 88)) eqn:Ex; [discriminate|]. unfold readRunes. cbn [r_ahead].
      destruct (readLoop rest1 false _) as [[s rs2]|] eqn:E2; [|discriminate]. apply Close in E2 as (w & -> & -> & Nq). cbn [Z.eqb app]. cbv zeta.
      destruct (Z.of_nat (length (encode w)) mod 2 =? 0) eqn:El; cbn [negb]; [|discriminate]. intros [= <- <-]. exists sp, (39 :: 92 :: x :: w ++ [39]).
      split; [rewrite E1; cbn [app]; now rewrite <- app_assoc|]. split; [exact S1|]. split; [|exact Logic.I].
      constructor; [|exact Nq|apply hex_pairs; split; [now apply Z.eqb_eq|reflexivity]].
      destruct (Z.eqb_spec x 120); [left; congruence|]. destruct (Z.eqb_spec x 88); [right; left; congruence|discriminate]. }
    destruct (Z.eqb_spec r 39) as [->|N39].
    { intros [= <- <-]. exists sp, [39; 39]. split; [now rewrite E1|]. split; [exact S1|]. split; [constructor|exact Logic.I]. }
    unfold readRunes. cbn [r_ahead]. destruct (readLoop rest1 false _) as [[s rs2]|] eqn:E2; [|discriminate]. apply Close in E2 as (w & -> & -> & Nq). intros [= <- <-].
    exists sp, (39 :: r :: w ++ [39]). split; [rewrite E1; cbn [app]; now rewrite <- app_assoc|]. split; [exact S1|]. split; [|exact Logic.I].
    destruct (Z.eqb_spec r 0) as [->|N0]; [now apply vt_nul|now apply vt_string].
  Qed.

  (** ** Rows *)

  Lemma value_head w v : value_text w v -> exists r w', w = r :: w' /\ x_is_space r = false.
  Proof.
    destruct quote_class as (Q1 & _).
    intros H. destruct H as [w i N F _ _|w p N F _ _|w b N F _|w N F _| | | | ]; try (eexists _, _; split; [reflexivity|exact Q1]);
      (destruct w as [|r w]; [contradiction|]; inversion F; subst; eexists _, _; split; [reflexivity|]; first [apply number_visible; assumption|apply letter_visible; assumption]).
  Qed.
  Lemma after_spaces v sp r f : spaces sp -> In r [41; 44] -> ends_value v (sp ++ r :: f).
  Proof.
    assert (A : forall s, x_is_space s = true -> ~ number_rune s /\ ~ letter_rune s) by (intros s H; split; intros K; [apply number_visible in K|apply letter_visible in K]; congruence).
    assert (B : forall s, In s [41; 44] -> ~ number_rune s /\ ~ letter_rune s).
    { intros s [<-|[<-|[]]]; (split; [intros [K|K]; [rewrite digit_ascii in K by lia|]; lia|unfold letter_rune; rewrite letter_ascii by lia; lia]). }
    intros S1 I. destruct S1 as [|s sp H _]; cbn [app]; destruct v; cbn [ends_value]; try exact Logic.I; (apply (B r I) || apply (A s H)).
  Qed.
  Lemma punct_visible : x_is_space 40 = false /\ x_is_space 41 = false /\ x_is_space 44 = false.
  Proof. repeat split; apply not_true; rewrite space_ascii by lia; lia. Qed.

  Lemma unskip sp r l la : spaces sp -> x_is_space r = false ->
    exists rs, skipTo {| r_ahead := sp ++ r :: l; r_last := la |} = Some (r, rs) /\ unreadRune_ rs = {| r_ahead := r :: l; r_last := None |}.
  Proof. intros S1 H. rewrite skipTo_spaces by assumption. eexists. split; reflexivity. Qed.

  Lemma items_complete w r : items_text w r -> forall n f la, (length w < n)%nat ->
    parseRowLoop n {| r_ahead := w ++ f; r_last := la |} = Some (r, {| r_ahead := f; r_last := Some 41 |}).
  Proof.
    destruct punct_visible as (_ & V1 & V2).
    induction 1 as [sp1 w sp2 v S1 Hv S2|sp1 w sp2 v w' r S1 Hv S2 Hi IH]; intros n f la Hn; (destruct n as [|n]; [lia|]); cbn [parseRowLoop];
      destruct (value_head w v Hv) as (r0 & w0 & Ew & Vr).
    - replace ((sp1 ++ w ++ sp2 ++ [41]) ++ f) with (sp1 ++ r0 :: w0 ++ sp2 ++ 41 :: f) by (rewrite Ew, <- !app_assoc; reflexivity).
      rewrite skipTo_spaces by assumption. unfold unreadRune_. cbn [r_last r_ahead].
      destruct (value_complete w v Hv [] (sp2 ++ 41 :: f) None ltac:(constructor)) as [la' K]; [apply after_spaces; [exact S2|now left]|].
      rewrite Ew in K. cbn [app] in K. rewrite K. rewrite skipTo_spaces by assumption. reflexivity.
    - replace ((sp1 ++ w ++ sp2 ++ 44 :: w') ++ f) with (sp1 ++ r0 :: w0 ++ sp2 ++ 44 :: w' ++ f) by (rewrite Ew, <- !app_assoc; reflexivity).
      rewrite skipTo_spaces by assumption. unfold unreadRune_. cbn [r_last r_ahead].
      destruct (value_complete w v Hv [] (sp2 ++ 44 :: w' ++ f) None ltac:(constructor)) as [la' K]; [apply after_spaces; [exact S2|now right; left]|].
      rewrite Ew in K. cbn [app] in K. rewrite K. rewrite skipTo_spaces by assumption. cbn [Z.eqb Pos.eqb negb].
      rewrite IH; [reflexivity|]. rewrite !app_length in Hn. cbn [length] in Hn. lia.
  Qed.

  Lemma items_sound n : forall rs r rs', parseRowLoop n rs = Some (r, rs') -> exists w, r_ahead rs = w ++ r_ahead rs' /\ items_text w r /\ r_last rs' = Some 41.
  Proof.
    induction n as [|n IH]; intros rs r rs'; cbn [parseRowLoop]; [discriminate|].
    destruct (skipTo rs) as [[c rs1]|] eqn:E1; [|discriminate]. apply skipTo_sound in E1 as (sp1 & E1 & S1 & V1 & La).
    destruct (parseValue (unreadRune_ rs1)) as [[v rs2]|] eqn:E2; [|discriminate]. apply value_sound in E2 as (sp & w & E2 & Sp & Hv & _).
    unfold unreadRune_ in E2. rewrite La in E2. cbn [r_ahead] in E2.
    destruct (skipTo rs2) as [[c' rs3]|] eqn:E3; [|discriminate]. apply skipTo_sound in E3 as (sp2 & E3 & S2 & _ & La3).
    assert (E : r_ahead rs = (sp1 ++ sp) ++ w ++ sp2 ++ c' :: r_ahead rs3) by (rewrite E1, E2, E3, <- !app_assoc; reflexivity).
    assert (S12 : spaces (sp1 ++ sp)) by (apply Forall_app; now split).
    destruct (Z.eqb_spec c' 41) as [->|].
    - intros [= <- <-]. exists ((sp1 ++ sp) ++ w ++ sp2 ++ [41]). split; [rewrite E, <- !app_assoc; reflexivity|]. split; [now constructor|exact La3].
    - destruct (Z.eqb_spec c' 44) as [->|]; cbn [negb]; [|discriminate]. destruct (parseRowLoop n rs3) as [[vs rs4]|] eqn:E4; [|discriminate]. intros [= <- <-].
      apply IH in E4 as (w' & E4 & Hi & La4). exists ((sp1 ++ sp) ++ w ++ sp2 ++ 44 :: w').
      split; [rewrite E, E4, <- !app_assoc; reflexivity|]. split; [now constructor|exact La4].
  Qed.

  Lemma row_complete w r : row_text w r -> forall f la, parseRow {| r_ahead := w ++ f; r_last := la |} = Some (r, {| r_ahead := f; r_last := Some 41 |}).
  Proof.
    intros (sp & w' & -> & S1 & Hi) f la. destruct punct_visible as (V1 & _). unfold parseRow.
    replace ((sp ++ 40 :: w') ++ f) with (sp ++ 40 :: w' ++ f) by (now rewrite <- app_assoc). rewrite expect_spaces by assumption. cbn [r_ahead].
    apply items_complete; [exact Hi|]. rewrite app_length. lia.
  Qed.
  Lemma row_sound rs r rs' : parseRow rs = Some (r, rs') -> exists w, r_ahead rs = w ++ r_ahead rs' /\ row_text w r /\ r_last rs' = Some 41.
  Proof.
    unfold parseRow. destruct (expectRune rs 40 false) as [[e rs1]|] eqn:E1; [|discriminate].
    apply expect_sound in E1 as [(-> & sp & E1 & S1 & _)|(K & _)]; [|discriminate]. intros H. apply items_sound in H as (w & E2 & Hi & La).
    exists (sp ++ 40 :: w). split; [rewrite E1, E2, <- app_assoc; reflexivity|]. split; [now exists sp, w|exact La].
  Qed.

  Lemma row_nonempty w r : row_text w r -> (0 < length w)%nat.
  Proof. intros (sp & w' & -> & _). rewrite app_length. cbn. lia. Qed.

  Lemma rows_complete w l : rows_text w l -> forall n la, (length w < n)%nat -> parseRowsLoop n {| r_ahead := w; r_last := la |} = Some l.
  Proof.
    destruct punct_visible as (_ & _ & V2).
    induction 1 as [w r sp Hr S1|w r sp w' l Hr S1 Hl IH]; intros n la Hn; (destruct n as [|n]; [lia|]); cbn [parseRowsLoop]; rewrite (row_complete w r Hr).
    - now rewrite expect_end.
    - rewrite expect_spaces by assumption. rewrite IH; [reflexivity|]. rewrite !app_length in Hn. cbn [length] in Hn. lia.
  Qed.
  Lemma rows_sound n : forall rs l, parseRowsLoop n rs = Some l -> rows_text (r_ahead rs) l.
  Proof.
    induction n as [|n IH]; intros rs l; cbn [parseRowsLoop]; [discriminate|].
    destruct (parseRow rs) as [[r rs1]|] eqn:E1; [|discriminate]. apply row_sound in E1 as (w & E1 & Hr & _).
    destruct (expectRune rs1 44 true) as [[e rs2]|] eqn:E2; [|discriminate]. apply expect_sound in E2 as [(-> & sp & E2 & S1 & _)|(_ & -> & S1)].
    - destruct (parseRowsLoop n rs2) as [l'|] eqn:E3; [|discriminate]. intros [= <-]. apply IH in E3. rewrite E1, E2. now constructor.
    - intros [= <-]. rewrite E1. now constructor.
  Qed.

  Lemma ParseValue_iff text v f : (exists la, ParseValue text = Some (v, {| r_ahead := f; r_last := la |})) <->
    exists sp w, text = sp ++ w ++ f /\ spaces sp /\ value_text w v /\ ends_value v f.
  Proof.
    split.
    - intros [la H]. apply value_sound in H as (sp & w & H). exists sp, w. exact H.
    - intros (sp & w & -> & S1 & Hv & He). now apply value_complete.
  Qed.
  Lemma ParseRow_iff text r f : (exists la, ParseRow text = Some (r, {| r_ahead := f; r_last := la |})) <-> exists w, text = w ++ f /\ row_text w r.
  Proof.
    split.
    - intros [la H]. apply row_sound in H as (w & E & Hr & _). exists w. now split.
    - intros (w & -> & Hr). eexists. now apply row_complete.
  Qed.
  Lemma ParseRows_iff text l : ParseRows text = Some l <-> rows_text text l.
  Proof.
    split; [intros H; apply rows_sound in H; exact H|]. intros H. apply rows_complete; [exact H|]. cbn. lia.
  Qed.

  (** ** Rows that are printed *)

  Context {P : PrintLib}.
  Hypothesis HL : CaseLib_ok L.

  Definition prints (w : list Z) (s : bytes) : Prop := Forall scalar w /\ encode w = s.
  Lemma ascii_scalar s : Forall is_ascii s -> Forall scalar (map bz s).
  Proof. intros H. apply Forall_map. revert H. apply Forall_impl. intros b H. pose proof (bz_range b). unfold is_ascii in H. unfold scalar. lia. Qed.
  Lemma prints_ascii s : Forall is_ascii s -> prints (map bz s) s.
  Proof. intros H. split; [now apply ascii_scalar|now apply encode_ascii]. Qed.
  Lemma prints_app w1 w2 s1 s2 : prints w1 s1 -> prints w2 s2 -> prints (w1 ++ w2) (s1 ++ s2).
  Proof. intros [A1 <-] [A2 <-]. split; [apply Forall_app; now split|apply encode_app]. Qed.

  Lemma format_int_digits i : is_i64 i -> 0 <= i -> Forall digit (format_int i).
  Proof.
    unfold is_i64. intros H N. unfold format_int. assert (10 ^ Z.of_nat 20 = 100000000000000000000) as Hp by reflexivity. destruct (Z.ltb_spec i 0); [lia|].
    destruct (format_digits_spec 20 i []) as (ds & -> & _ & H2 & _); [lia|lia|]. now rewrite app_nil_r.
  Qed.
  Lemma byte_halves v : bz v = Z.lor ((16 * (bz v / 16)) mod 256) (bz v mod 16).
  Proof. destruct v; reflexivity. Qed.

  Lemma value_printed v : writable v -> exists w, prints w (FormatValue v) /\ value_text w v.
  Proof.
    assert (Wd : forall s, Forall is_ascii s -> Forall (fun b => 65 <= bz b <= 90 \/ 97 <= bz b <= 122) s -> s <> [] ->
      map bz s <> [] /\ Forall letter_rune (map bz s) /\ x_to_lower (encode (map bz s)) = map ascii_lower s).
    { intros s A F N. split; [now destruct s|]. split; [|rewrite encode_ascii by exact A; now apply HL]. apply Forall_map. revert F. apply Forall_impl. intros b H. apply letter_ascii; [pose proof (bz_range b); lia|exact H]. }
    assert (Nm : forall s, Forall (fun b => digit b \/ bz b = 46) s -> Forall is_ascii s /\ Forall number_rune (map bz s)).
    { intros s F. split; [revert F; apply Forall_impl; intros b [H|H]; unfold digit in *; unfold is_ascii; lia|]. apply Forall_map. revert F. apply Forall_impl.
      intros b [H|H]; [left; unfold digit in H; apply digit_ascii; lia|now right]. }
    destruct v as [|b|s|s|p|i]; cbn [writable FormatValue]; intros H.
    - destruct (Wd (str "NULL")) as (W1 & W2 & W3); [repeat constructor; vm_compute; reflexivity|repeat constructor; vm_compute; intuition discriminate|discriminate|].
      exists (map bz (str "NULL")). split; [apply prints_ascii; repeat constructor; vm_compute; reflexivity|]. constructor; assumption.
    - exists (map bz (if b then str "true" else str "false")). destruct b.
      + destruct (Wd (str "true")) as (W1 & W2 & W3); [repeat constructor; vm_compute; reflexivity|repeat constructor; vm_compute; intuition discriminate|discriminate|].
        split; [apply prints_ascii; repeat constructor; vm_compute; reflexivity|]. constructor; assumption.
      + destruct (Wd (str "false")) as (W1 & W2 & W3); [repeat constructor; vm_compute; reflexivity|repeat constructor; vm_compute; intuition discriminate|discriminate|].
        split; [apply prints_ascii; repeat constructor; vm_compute; reflexivity|]. constructor; assumption.
    - destruct H as (w & -> & Sc & Nq & Hh). exists (39 :: w ++ [39]).
      assert (Q : prints [39] (str "'")) by (split; [repeat constructor; unfold scalar; lia|reflexivity]).
      split; [exact (prints_app [39] (w ++ [39]) _ _ Q (prints_app w [39] _ _ (conj Sc eq_refl) Q))|].
      destruct w as [|r w]; [constructor|]. inversion Nq; subst. destruct Hh. cbn [app]. now apply vt_string.
    - pose (h := flat_map (fun v => [hexDigit (bz v / 16); hexDigit (bz v mod 16)]) s).
      assert (Hd : forall d, 0 <= d < 16 -> is_ascii (hexDigit d) /\ bz (hexDigit d) <> 39 /\ nibble (hexDigit d) d).
      { intros d D. assert (E : bz (hexDigit d) = if d <? 10 then 48 + d else 87 + d) by (unfold hexDigit; rewrite bz_zb; apply Z.mod_small; destruct (d <? 10) eqn:K; [apply Z.ltb_lt in K|apply Z.ltb_ge in K]; lia).
        unfold is_ascii. destruct (Z.ltb_spec d 10); (split; [lia|split; [lia|]]).
        - replace d with (bz (hexDigit d) - 48) at 2 by lia. apply nb_digit. lia.
        - replace d with (bz (hexDigit d) - 97 + 10) at 2 by lia. apply nb_lower. lia. }
      assert (A : Forall is_ascii h /\ no_quote (map bz h) /\ pairs h s).
      { subst h. induction s as [|v s (IH1 & IH2 & IH3)]; [split; [constructor|split; constructor]|]. cbn [flat_map app map]. pose proof (bz_range v) as Hv.
        destruct (Hd (bz v / 16)) as (A1 & A2 & A3); [Z.to_euclidean_division_equations; lia|]. destruct (Hd (bz v mod 16)) as (B1 & B2 & B3); [Z.to_euclidean_division_equations; lia|].
        split; [now repeat constructor|]. split; [now repeat constructor|]. apply (pr_cons _ _ _ _ _ _ _ A3 B3); [|exact IH3]. apply byte_halves. }
      destruct A as (A1 & A2 & A3). exists (39 :: 92 :: 120 :: map bz h ++ [39]). split.
      + assert (Q : prints [39] (str "'")) by (split; [repeat constructor; unfold scalar; lia|reflexivity]).
        refine (prints_app [39; 92; 120] (map bz h ++ [39]) (str "'\x") (h ++ str "'") _ (prints_app (map bz h) [39] _ _ (prints_ascii h A1) Q)).
        split; [repeat constructor; unfold scalar; lia|reflexivity].
      + constructor; [now left|exact A2|]. now rewrite encode_ascii.
    - destruct H as (N & F & T & E). destruct (Nm _ F) as [A F']. exists (map bz (x_print_float p)). split; [now apply prints_ascii|].
      constructor; [now destruct (x_print_float p)|exact F'|rewrite encode_ascii by exact A; exact T|rewrite encode_ascii by exact A; exact E].
    - destruct H as [H N]. pose proof (format_int_digits i H N) as F. destruct (Nm (format_int i)) as [A F']; [revert F; apply Forall_impl; auto|].
      exists (map bz (format_int i)). pose proof (format_int_text i H) as T. split; [now apply prints_ascii|].
      constructor; [destruct T; destruct ds; congruence || discriminate|exact F'|rewrite encode_ascii by exact A; exact T|exact H].
  Qed.

  Lemma comma_prints : prints [44; 32] (str ", ").
  Proof. split; [repeat constructor; unfold scalar; lia|reflexivity]. Qed.
  Lemma blank_32 : spaces [32].
  Proof. constructor; [apply space_ascii; lia|constructor]. Qed.

  Lemma items_printed r : forall v, writable v -> Forall writable r ->
    exists w, prints w (FormatValue v ++ flat_map (fun v => str ", " ++ FormatValue v) r ++ str ")") /\ items_text w (v :: r) /\ items_text (32 :: w) (v :: r).
  Proof.
    induction r as [|u r IH]; intros v Hv Hr; destruct (value_printed v Hv) as (w & Pw & Vw).
    - exists (w ++ [41]). split; [apply prints_app; [exact Pw|split; [repeat constructor; unfold scalar; lia|reflexivity]]|]. split.
      + apply (it_last [] w [] v); [constructor|exact Vw|constructor].
      + apply (it_last [32] w [] v); [apply blank_32|exact Vw|constructor].
    - inversion Hr; subst. destruct (IH u) as (w' & Pw' & _ & Iw'); [assumption..|]. exists (w ++ 44 :: 32 :: w'). split.
      + cbn [flat_map]. rewrite <- !app_assoc. apply prints_app; [exact Pw|]. exact (prints_app [44; 32] w' _ _ comma_prints Pw').
      + split; [apply (it_more [] w [] v (32 :: w') (u :: r)); [constructor|exact Vw|constructor|exact Iw']|].
        apply (it_more [32] w [] v (32 :: w') (u :: r)); [apply blank_32|exact Vw|constructor|exact Iw'].
  Qed.
  Lemma row_printed r : r <> [] -> Forall writable r -> exists w, prints w (rowString r) /\ forall sp, spaces sp -> row_text (sp ++ w) r.
  Proof.
    destruct r as [|v r]; [contradiction|]. intros _ H. inversion H; subst. destruct (items_printed r v) as (w & Pw & Iw & _); [assumption..|].
    exists (40 :: w). unfold rowString. rewrite <- app_assoc. split.
    - refine (prints_app [40] w (str "(") _ _ Pw). split; [repeat constructor; unfold scalar; lia|reflexivity].
    - intros sp S1. exists sp, w. auto.
  Qed.
  Lemma rows_printed sep : separator sep -> forall rows r, Forall (fun r => r <> [] /\ Forall writable r) (r :: rows) ->
    exists w, prints w (FormatRows (r :: rows) sep) /\ forall sp, spaces sp -> rows_text (sp ++ w) (r :: rows).
  Proof.
    intros (sp1 & sp2 & Es & Sc & S1 & S2). apply Forall_app in Sc as [Sc1 Sc2]. induction rows as [|r' rows IH]; intros r H; inversion H as [|? ? [Hn Hw] H']; subst;
      destruct (row_printed r Hn Hw) as (w & Pw & Rw).
    - exists w. unfold FormatRows. cbn [flat_map]. rewrite app_nil_r. split; [exact Pw|]. intros sp S. rewrite <- (app_nil_r (sp ++ w)). constructor; [now apply Rw|constructor].
    - destruct (IH r' H') as (w' & Pw' & Rw'). exists (w ++ sp1 ++ 44 :: sp2 ++ w'). split.
      + unfold FormatRows. cbn [flat_map]. unfold FormatRows in Pw'. apply prints_app; [exact Pw|].
        assert (Ps : prints (sp1 ++ 44 :: sp2) (encode (sp1 ++ 44 :: sp2))) by (split; [apply Forall_app; split; [exact Sc1|constructor; [unfold scalar; lia|exact Sc2]]|reflexivity]).
        pose proof (prints_app _ _ _ _ Ps Pw') as K. rewrite <- app_assoc in K. cbn [app] in K. rewrite <- app_assoc. exact K.
      + intros sp S. rewrite app_assoc. constructor; [now apply Rw|exact S1|now apply Rw'].
  Qed.
  Lemma round_trip_rows rows sep : rows <> [] -> Forall (fun r => r <> [] /\ Forall writable r) rows -> separator sep ->
    exists w, Forall scalar w /\ encode w = FormatRows rows sep /\ ParseRows w = Some rows /\
      forall w', Forall scalar w' -> encode w' = FormatRows rows sep -> w' = w.
  Proof.
    destruct rows as [|r rows]; [contradiction|]. intros _ H Hs. destruct (rows_printed sep Hs rows r H) as (w & [Sc E] & R). exists w. split; [exact Sc|]. split; [exact E|].
    split; [apply ParseRows_iff; apply (R []); constructor|]. intros w' Sc' E'. apply encode_injective; [assumption..|congruence].
  Qed.

  (** No other rows are printed that could be read: negative numbers are not. *)
  Lemma no_negative w v : value_text w v -> match v with VInt i => 0 <= i | _ => True end.
  Proof.
    destruct 1 as [w i N F T I| | | | | | | ]; try exact Logic.I. inversion T as [ds D1 D2 E1 E2|ds D1 D2 E1 E2|ds D1 D2 E1 E2]; subst; [apply dec_value_nonneg; assumption..|exfalso].
    destruct w as [|r w]; [contradiction|]. inversion F as [|? ? Hr _]; subst. change (encode (r :: w)) with (utf8_encode r ++ encode w) in E1.
    assert (0 <= r) by (destruct Hr as [K| ->]; [destruct HU as (_ & K2 & _); apply K2; auto|lia]).
    destruct (Z_lt_le_dec r 128) as [Lo|Hi].
    - rewrite utf8_ascii in E1 by lia. injection E1 as E1 _. apply (f_equal bz) in E1. rewrite bz_zb, Z.mod_small in E1 by lia. change (bz x2d) with 45 in E1. subst r.
      destruct Hr as [K|K]; [rewrite digit_ascii in K by lia|]; lia.
    - destruct (utf8_big r Hi) as (b & bs & E & Hb). rewrite E in E1. injection E1 as <- _. change (bz x2d) with 45 in Hb. lia.
  Qed.
  Lemma items_positive w r : items_text w r -> Forall (fun v => match v with VInt i => 0 <= i | _ => True end) r.
  Proof. induction 1; constructor; try constructor; try assumption; eapply no_negative; eassumption. Qed.
  Lemma rows_positive w rows : ParseRows w = Some rows -> rows <> [] /\ Forall (fun r => r <> [] /\ Forall (fun v => match v with VInt i => 0 <= i | _ => True end) r) rows.
  Proof.
    intros H. apply ParseRows_iff in H. induction H as [w r sp (sp' & w' & _ & _ & Hi) _|w r sp w' l (sp' & w1 & _ & _ & Hi) _ _ [_ IH]]; (split; [discriminate|]);
      constructor; try assumption; try constructor; try (eapply items_positive; eassumption); destruct Hi; discriminate.
  Qed.
End Parse.
