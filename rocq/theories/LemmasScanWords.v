(** Constants, comments and tokens. *)

From Verif Require Import ModelScanner SpecScanner LemmasBase LemmasValue LemmasScanner LemmasScanText.

Section Words.
  Context {X : FloatLib} {L : CaseLib} {U : RuneLib} {B : BufLib}.
  Context (HU : RuneLib_scan U).

  Lemma space_quote : x_is_space 39 = false.
  Proof. destruct (x_is_space 39) eqn:E; [|reflexivity]. destruct HU as (H1 & _). destruct (H1 39 ltac:(lia)) as (_ & _ & [H2 _]). specialize (H2 E). lia. Qed.

  Lemma newline_in sp : existsb (fun x => (x =? 10) || (x =? 13)) sp = true <-> In 10 sp \/ In 13 sp.
  Proof.
    rewrite existsb_exists. split.
    - intros (x & I & E). apply Bool.orb_prop in E. rewrite !Z.eqb_eq in E. destruct E as [-> | ->]; tauto.
    - intros [I|I]; [exists 10|exists 13]; now split.
  Qed.

  (** ** Quoted constants *)

  Lemma quoted_any esc fuel : forall s c l u t, (length l < fuel)%nat -> at_ s l u t ->
    exists s' c' tk l' u', scanQuotedConstant fuel s c esc = Some (s', c', tk) /\ at_ s' l' u' t /\ suffix l' l /\
      (tk = -3 /\ (c_error c' <> None \/ bad_escape l) \/
       tk = -6 /\ c' = c /\ exists w v f, l = w ++ [39] ++ f /\ quoted_body esc w v /\ quote_ends f l' /\ u' = u ++ encode v).
  Proof.
    induction fuel as [|fuel IH]; intros s c l u t Hf H; [lia|]. cbn [scanQuotedConstant].
    destruct l as [|r l].
    { destruct (read_nil _ _ _ H) as (s1 & E & H1 & _). rewrite E. cbn [Z.eqb Pos.eqb]. do 3 eexists. exists [], u. split; [reflexivity|]. split; [exact H1|]. split; [apply suffix_refl|].
      left. split; [reflexivity|]. left. discriminate. }
    destruct (read_cons _ _ _ _ _ H) as (s1 & E & H1 & H2 & Hr). rewrite E. cbn [length] in Hf.
    destruct (Z.eqb_spec r (-1)); [lia|]. destruct (Z.eqb_spec r (-3)); [lia|].
    destruct (Z.eqb_spec r 39) as [->|Q].
    - destruct (read_any _ _ _ _ H1) as (s2 & E2 & H3 & H4 & Hp & Hn). rewrite E2.
      destruct (x_is_space (hd_rune l)) eqn:Sp.
      + destruct (quoteSpace_spec HU (S fuel) s2 (hd_rune l) false l u t ltac:(lia) H3 H4 eq_refl) as (s3 & E3 & H5 & H6).
        rewrite E3. cbn [orb].
        destruct (span_spec x_is_space l) as (I1 & I2 & I3). destruct (span x_is_space l) as [sp l2]. cbn [fst snd] in *.
        destruct (existsb _ sp) eqn:NL.
        * destruct (Z.eqb_spec (hd_rune l2) 39) as [Q2|Q2]; cbn [andb].
          -- destruct l2 as [|q l2]; [discriminate|]. cbn [hd_rune tl] in *. subst q.
             destruct (IH s3 c l2 u t) as (s' & c' & tk & l' & u' & E4 & H7 & S7 & D); [subst l; rewrite app_length in Hf; cbn in Hf; lia|exact H5|].
             exists s', c', tk, l', u'. split; [exact E4|]. split; [exact H7|]. split; [subst l; now apply suffix_cons, suffix_app, suffix_cons|].
             destruct D as [[-> D]|(-> & -> & w & v & f & -> & D1 & D2 & D3)].
             ++ left. split; [reflexivity|]. destruct D as [D|D]; [now left|right]. subst l. now apply bad_escape_cons, bad_escape_app, bad_escape_cons.
             ++ right. split; [reflexivity|]. split; [reflexivity|]. exists (39 :: sp ++ 39 :: w), v, f. split; [subst l; cbn; now rewrite <- app_assoc|].
                split; [|now split]. apply qb_join; [exact I2| |exact D1]. now apply newline_in.
          -- destruct (Z.eqb_spec (hd_rune l2) (-3)) as [Q3|Q3]; [exfalso; destruct (read_any _ _ _ _ H6) as (_ & _ & _ & _ & Hq & _); lia|].
             do 5 eexists. split; [reflexivity|]. split; [exact H6|]. split; [subst l; now apply suffix_cons, suffix_app, suffix_refl|].
             right. split; [reflexivity|]. split; [reflexivity|]. exists [], [], l. split; [reflexivity|]. split; [constructor|]. split; [|cbn; now rewrite app_nil_r].
             exists sp. split; [exact I1|]. split; [exact I2|]. split; [exact I3|]. destruct l2 as [|q l2]; [exact Logic.I|]. intros ->. now elim Q2.
        * rewrite Bool.andb_false_r.
          destruct (Z.eqb_spec (hd_rune l2) (-3)) as [Q3|Q3]; [exfalso; destruct (read_any _ _ _ _ H6) as (_ & _ & _ & _ & Hq & _); lia|].
          do 5 eexists. split; [reflexivity|]. split; [exact H6|]. split; [subst l; now apply suffix_cons, suffix_app, suffix_refl|].
          right. split; [reflexivity|]. split; [reflexivity|]. exists [], [], l. split; [reflexivity|]. split; [constructor|]. split; [|cbn; now rewrite app_nil_r].
          exists sp. split; [exact I1|]. split; [exact I2|]. split; [exact I3|]. destruct l2 as [|q l2]; [exact Logic.I|]. intros ->.
          assert (NN : ~ (In 10 sp \/ In 13 sp)) by (rewrite <- newline_in; congruence).
          split; [|tauto]. intros ->. subst l. cbn [app hd_rune] in Sp. rewrite space_quote in Sp. discriminate.
      + destruct (Z.eqb_spec (hd_rune l) 39) as [Q2|Q2]; cbn [negb].
        * destruct l as [|q l]; [discriminate|]. cbn [hd_rune tl length] in *. subst q. unfold quotedRune. cbn [Z.eqb Pos.eqb andb].
          apply (at_write _ _ _ _ 39) in H3.
          destruct (IH _ c l _ t ltac:(lia) H3) as (s' & c' & tk & l' & u' & E4 & H7 & S7 & D).
          exists s', c', tk, l', u'. split; [exact E4|]. split; [exact H7|]. split; [now do 2 apply suffix_cons|].
          destruct D as [[-> D]|(-> & -> & w & v & f & -> & D1 & D2 & D3)].
          -- left. split; [reflexivity|]. destruct D as [D|D]; [now left|right]. now do 2 apply bad_escape_cons.
          -- right. split; [reflexivity|]. split; [reflexivity|]. exists (39 :: 39 :: w), (39 :: v), f. split; [reflexivity|]. split; [now constructor|]. split; [exact D2|].
             rewrite D3, encode_cons, app_assoc. reflexivity.
        * do 5 eexists. split; [reflexivity|]. split; [exact H4|]. split; [now apply suffix_cons, suffix_refl|].
          right. split; [reflexivity|]. split; [reflexivity|]. exists [], [], l. split; [reflexivity|]. split; [constructor|]. split; [|cbn; now rewrite app_nil_r].
          exists []. split; [reflexivity|]. split; [constructor|]. destruct l as [|q l]; cbn [no_start hd_rune] in *; [now split|]. unfold space. split; congruence.
    - unfold quotedRune. destruct ((r =? 92) && esc) eqn:Es.
      + apply andb_prop in Es. destruct Es as [Es ->]. apply Z.eqb_eq in Es. subst r.
        destruct (scanEscape_any s1 c l u t H1) as (s2 & c2 & r & l2 & E2 & H3 & S3 & D). rewrite E2.
        destruct D as [->|[[-> D]|(-> & N1 & N3 & e & r' & -> & He & Eq)]].
        * cbn [Z.eqb Pos.eqb]. do 5 eexists. split; [reflexivity|]. split; [exact H3|]. split; [now apply suffix_cons|]. left. split; [reflexivity|]. left. discriminate.
        * cbn [Z.eqb Pos.eqb]. do 5 eexists. split; [reflexivity|]. split; [exact H3|]. split; [now apply suffix_cons|]. left. now split.
        * destruct (Z.eqb_spec r (-1)); [lia|]. destruct (Z.eqb_spec r (-3)); [lia|].
          apply (at_write _ _ _ _ r) in H3.
          destruct (IH (writeRune s2 r) c l2 (u ++ utf8_encode r) t) as (s' & c' & tk & l' & u' & E4 & H7 & S7 & D); [rewrite app_length in Hf; lia|exact H3|].
          exists s', c', tk, l', u'. split; [exact E4|]. split; [exact H7|]. split; [now apply suffix_cons, suffix_app|].
          destruct D as [[-> D]|(-> & -> & w & v & f & -> & D1 & D2 & D3)].
          -- left. split; [reflexivity|]. destruct D as [D|D]; [now left|right]. now apply bad_escape_cons, bad_escape_app.
          -- right. split; [reflexivity|]. split; [reflexivity|]. exists (92 :: e ++ w), (r' :: v), f. split; [cbn; now rewrite <- app_assoc|]. split; [now constructor|]. split; [exact D2|].
             rewrite D3, encode_cons, <- Eq, app_assoc. reflexivity.
      + apply (at_write _ _ _ _ r) in H1.
        destruct (IH _ c l _ t ltac:(lia) H1) as (s' & c' & tk & l' & u' & E4 & H7 & S7 & D).
        exists s', c', tk, l', u'. split; [exact E4|]. split; [exact H7|]. split; [now apply suffix_cons|].
        destruct D as [[-> D]|(-> & -> & w & v & f & -> & D1 & D2 & D3)].
        * left. split; [reflexivity|]. destruct D as [D|D]; [now left|right]. now apply bad_escape_cons.
        * right. split; [reflexivity|]. split; [reflexivity|]. exists (r :: w), (r :: v), f. split; [reflexivity|]. split; [|split; [exact D2|]].
          -- constructor; [exact Q| |exact D1]. intros ->. rewrite Bool.andb_true_r in Es. now apply Z.eqb_neq in Es.
          -- rewrite D3, encode_cons, app_assoc. reflexivity.
  Qed.

  Lemma quote_ends_scan f l fuel s c esc u t : quote_ends f l -> (length f < fuel)%nat -> at_ s (39 :: f) u t ->
    exists s', scanQuotedConstant (S fuel) s c esc = Some (s', c, -6) /\ at_ s' l u t.
  Proof.
    intros (sp & -> & F & N & Q) Hf H. cbn [scanQuotedConstant].
    destruct (read_cons _ _ _ _ _ H) as (s1 & E & H1 & H2 & Hr). rewrite E. cbn [Z.eqb Pos.eqb].
    destruct (read_any _ _ _ _ H1) as (s2 & E2 & H3 & H4 & Hp & Hn). rewrite E2.
    destruct (x_is_space (hd_rune (sp ++ l))) eqn:Sp.
    - destruct (quoteSpace_spec HU (S fuel) s2 _ false (sp ++ l) u t ltac:(lia) H3 H4 eq_refl) as (s3 & E3 & H5 & H6).
      rewrite E3. cbn [orb]. rewrite (span_app x_is_space sp l F N) in *. cbn [fst snd] in *.
      replace ((hd_rune l =? 39) && _) with false.
      2:{ symmetry. apply Bool.andb_false_iff. destruct (Z.eqb_spec (hd_rune l) 39) as [K|K]; [right|now left].
          destruct l as [|r l]; [discriminate|]. cbn in K. specialize (Q K). apply Bool.not_true_is_false. rewrite newline_in. tauto. }
      destruct (Z.eqb_spec (hd_rune l) (-3)) as [Q3|Q3].
      { exfalso. destruct (read_any _ _ _ _ H6) as (_ & _ & _ & _ & Hq & _). lia. }
      now exists (unreadRune s3).
    - assert (sp = []) as ->. { destruct sp as [|x sp]; [reflexivity|]. inversion F; subst. cbn in Sp. unfold space in *. congruence. }
      cbn [app] in *. destruct (Z.eqb_spec (hd_rune l) 39) as [K|K]; cbn [negb].
      + destruct l as [|r l]; [discriminate|]. cbn in K. destruct (Q K) as [Q1 _]. now elim Q1.
      + now exists (unreadRune s2).
  Qed.

  Lemma quoted_some esc w v : quoted_body esc w v -> forall fuel s c f l u t, (length w + length f + 1 < fuel)%nat ->
    quote_ends f l -> at_ s (w ++ [39] ++ f) u t ->
    exists s', scanQuotedConstant fuel s c esc = Some (s', c, -6) /\ at_ s' l (u ++ encode v) t.
  Proof.
    induction 1 as [|r w v N1 N2 Hq IH|w v Hq IH|sp w v F NL Hq IH|e r w v -> He Hq IH]; intros fuel s c f l u t Hf Hends H.
    - cbn [length app] in *. destruct fuel as [|fuel]; [lia|]. cbn [encode flat_map]. rewrite app_nil_r. apply (quote_ends_scan f); auto; lia.
    - cbn [length app] in *. destruct fuel as [|fuel]; [lia|]. cbn [scanQuotedConstant].
      destruct (read_cons _ _ _ _ _ H) as (s1 & E & H1 & H2 & Hr). rewrite E.
      destruct (Z.eqb_spec r (-1)); [lia|]. destruct (Z.eqb_spec r (-3)); [lia|]. destruct (Z.eqb_spec r 39); [contradiction|].
      unfold quotedRune. replace ((r =? 92) && esc) with false.
      2:{ symmetry. apply Bool.andb_false_iff. destruct esc; [left; apply Z.eqb_neq; now apply N2|now right]. }
      rewrite encode_cons, app_assoc. apply (IH fuel _ c f); [lia|exact Hends|]. now apply at_write.
    - cbn [length app] in *. destruct fuel as [|fuel]; [lia|]. cbn [scanQuotedConstant].
      destruct (read_cons _ _ _ _ _ H) as (s1 & E & H1 & H2 & Hr). rewrite E. cbn [Z.eqb Pos.eqb].
      destruct (read_cons _ _ _ _ _ H1) as (s2 & E2 & H3 & H4 & _). rewrite E2. rewrite space_quote. cbn [Z.eqb Pos.eqb negb].
      unfold quotedRune. cbn [Z.eqb Pos.eqb andb].
      rewrite encode_cons, app_assoc. apply (IH fuel _ c f); [lia|exact Hends|]. now apply at_write.
    - cbn [length app] in *. rewrite app_length in Hf. cbn [length] in Hf. destruct fuel as [|fuel]; [lia|]. cbn [scanQuotedConstant].
      destruct (read_cons _ _ _ _ _ H) as (s1 & E & H1 & H2 & Hr). rewrite E. cbn [Z.eqb Pos.eqb].
      destruct sp as [|x sp]; [destruct NL; contradiction|].
      destruct (read_any _ _ _ _ H1) as (s2 & E2 & H3 & H4 & Hp & Hn). rewrite E2.
      assert (Sx : x_is_space (hd_rune (((x :: sp) ++ 39 :: w) ++ 39 :: f)) = true) by (cbn; now inversion F). rewrite Sx.
      assert (Hl : (length (((x :: sp) ++ 39%Z :: w) ++ 39%Z :: f) < S fuel)%nat). { cbn [length app] in *. rewrite !app_length. cbn [length]. lia. }
      destruct (quoteSpace_spec HU (S fuel) s2 _ false _ u t Hl H3 H4 eq_refl) as (s3 & E3 & H5 & H6).
      rewrite E3. cbn [orb]. rewrite <- app_assoc in *. rewrite (span_app x_is_space (x :: sp)) in * by (assumption || (cbn; rewrite space_quote; discriminate)).
      cbn [fst snd] in *. rewrite (proj2 (newline_in (x :: sp)) NL). cbn [app hd_rune Z.eqb Pos.eqb andb tl] in *.
      apply (IH fuel s3 c f); [lia|exact Hends|exact H5].
    - cbn [length app] in *. rewrite app_length in Hf. destruct fuel as [|fuel]; [lia|]. cbn [scanQuotedConstant].
      destruct (read_cons _ _ _ _ _ H) as (s1 & E & H1 & H2 & Hr). rewrite E. cbn [Z.eqb Pos.eqb].
      unfold quotedRune. cbn [Z.eqb Pos.eqb andb]. rewrite <- app_assoc in H1.
      destruct (scanEscape_some e r s1 c _ u t He H1) as (s2 & r' & E2 & H3 & Eq & M1 & M3). rewrite E2.
      destruct (Z.eqb_spec r' (-1)); [contradiction|]. destruct (Z.eqb_spec r' (-3)); [contradiction|].
      rewrite encode_cons, app_assoc, <- Eq. apply (IH fuel _ c f); [lia|exact Hends|]. now apply at_write.
  Qed.

  (** ** Hexadecimal constants *)

  Lemma hexbytes_any fuel : forall s c l u t, (length l < fuel)%nat -> at_ s l u t ->
    exists s' c' tk l' u', scanHexBytes fuel s c = Some (s', c', tk) /\ at_ s' l' u' t /\ suffix l' l /\
      (tk = -3 /\ c_error c' <> None \/
       tk = -7 /\ c' = set_bytes c (b_bytes (s_buffer s')) /\ exists w v, l = w ++ [39] ++ l' /\ hex_body w v /\ u' = u ++ v).
  Proof.
    induction fuel as [|fuel IH]; intros s c l u t Hf H; [lia|]. cbn [scanHexBytes].
    destruct l as [|r l].
    { destruct (read_nil _ _ _ H) as (s1 & E & H1 & _). rewrite E. cbn [Z.eqb Pos.eqb]. do 3 eexists. exists [], u. split; [reflexivity|]. split; [exact H1|]. split; [apply suffix_refl|].
      left. split; [reflexivity|]. discriminate. }
    destruct (read_cons _ _ _ _ _ H) as (s1 & E & H1 & H2 & Hr). rewrite E. cbn [length] in Hf.
    destruct (Z.eqb_spec r (-1)); [lia|]. destruct (Z.eqb_spec r (-3)); [lia|].
    destruct (Z.eqb_spec r 39) as [->|Q].
    - do 5 eexists. split; [reflexivity|]. split; [exact H1|]. split; [apply suffix_cons, suffix_refl|]. right. split; [reflexivity|]. split; [reflexivity|].
      exists [], []. split; [reflexivity|]. split; [constructor|]. now rewrite app_nil_r.
    - destruct (hex_digit_any (unreadRune s1) c (r :: l) u t H2) as (s2 & H3 & [(r1 & l1 & d1 & Eq & D1 & E1)|E1]); rewrite E1.
      + injection Eq as <- <-. cbn [tl] in H3.
        destruct (hex_digit_any s2 c l u t H3) as (s3 & H4 & [(r2 & l2 & d2 & -> & D2 & E2)|E2]); rewrite E2.
        * cbn [tl length] in *. apply (at_writeByte _ _ _ _ (zb (d1 * 16 + d2))) in H4.
          destruct (IH _ c l2 _ t ltac:(lia) H4) as (s' & c' & tk & l' & u' & E3 & H5 & S5 & D).
          exists s', c', tk, l', u'. split; [exact E3|]. split; [exact H5|]. split; [now do 2 apply suffix_cons|].
          destruct D as [D|(-> & -> & w & v & -> & D3 & ->)]; [now left|]. right. split; [reflexivity|]. split; [reflexivity|].
          exists (r :: r2 :: w), (zb (d1 * 16 + d2) :: v). split; [reflexivity|]. split; [|now rewrite <- app_assoc].
          constructor; try assumption; now apply hexval_spec.
        * do 5 eexists. split; [reflexivity|]. split; [exact H4|]. split; [apply suffix_cons, suffix_tl|]. left. split; [reflexivity|]. discriminate.
      + do 5 eexists. split; [reflexivity|]. split; [exact H3|]. split; [apply suffix_tl|]. left. split; [reflexivity|]. discriminate.
  Qed.

  Lemma hexbytes_some w v : hex_body w v -> forall fuel s c f u t, (length w + length f + 1 < fuel)%nat ->
    at_ s (w ++ [39] ++ f) u t ->
    exists s', scanHexBytes fuel s c = Some (s', set_bytes c (b_bytes (s_buffer s')), -7) /\ at_ s' f (u ++ v) t.
  Proof.
    induction 1 as [|r1 d1 r2 d2 w v D1 D2 Hb IH]; intros fuel s c f u t Hf H; cbn [length app] in *; (destruct fuel as [|fuel]; [lia|]); cbn [scanHexBytes].
    - destruct (read_cons _ _ _ _ _ H) as (s1 & E & H1 & H2 & Hr). rewrite E. cbn [Z.eqb Pos.eqb]. exists s1. rewrite app_nil_r. now split.
    - destruct (read_cons _ _ _ _ _ H) as (s1 & E & H1 & H2 & Hr). rewrite E.
      destruct (Z.eqb_spec r1 (-1)); [lia|]. destruct (Z.eqb_spec r1 (-3)); [lia|].
      destruct (Z.eqb_spec r1 39); [inversion D1; lia|].
      apply hexval_spec in D1, D2. destruct (hex_digit_some _ c _ _ _ _ _ H2 D1) as (s2 & E2 & H3). rewrite E2.
      destruct (hex_digit_some _ c _ _ _ _ _ H3 D2) as (s3 & E3 & H4). rewrite E3.
      apply (at_writeByte _ _ _ _ (zb (d1 * 16 + d2))) in H4.
      destruct (IH fuel _ c f _ t ltac:(lia) H4) as (s' & E4 & H5). exists s'. split; [exact E4|]. now rewrite <- app_assoc in H5.
  Qed.

  (** ** Comments *)

  Lemma lineComment_spec fuel : forall s l u t, (length l < fuel)%nat -> at_ s l u t ->
    exists s', at_ s' (tl (snd (span (fun r => negb (r =? 10)) l))) u t /\
      lineComment fuel s = Some (match snd (span (fun r => negb (r =? 10)) l) with [] => Some (-1) | _ => None end, s').
  Proof.
    induction fuel as [|fuel IH]; intros s l u t Hf H; [lia|]. cbn [lineComment]. destruct l as [|x l].
    - destruct (read_nil _ _ _ H) as (s1 & E & H1 & _). rewrite E. cbn. now exists s1.
    - destruct (read_cons _ _ _ _ _ H) as (s1 & E & H1 & H2 & Hr). rewrite E. destruct (Z.ltb_spec x 0); [lia|].
      cbn [length] in Hf. cbn [span]. destruct (x =? 10); cbn [negb].
      + now exists s1.
      + destruct (IH s1 l u t ltac:(lia) H1) as (s' & H3 & E3). exists s'. destruct (span _ l) as [a b]. now split.
  Qed.

  (** The text up to the first star and slash and what is behind, given the
      rune before. *)
  Fixpoint block_span (p : Z) (l : list Z) : option (list Z) :=
    match l with
    | [] => None
    | r :: l' => if (p =? 42) && (r =? 47) then Some l' else block_span r l'
    end.

  Lemma blockComment_spec fuel : forall s p l u t, (length l < fuel)%nat -> at_ s l u t ->
    exists s', match block_span p l with
               | Some l' => at_ s' l' u t /\ blockComment fuel s p = Some (None, s')
               | None => at_ s' [] u t /\ blockComment fuel s p = Some (Some (-1), s')
               end.
  Proof.
    induction fuel as [|fuel IH]; intros s p l u t Hf H; [lia|]. cbn [blockComment]. destruct l as [|x l].
    - destruct (read_nil _ _ _ H) as (s1 & E & H1 & _). rewrite E. cbn. now exists s1.
    - destruct (read_cons _ _ _ _ _ H) as (s1 & E & H1 & H2 & Hr). rewrite E. destruct (Z.ltb_spec x 0); [lia|].
      cbn [length] in Hf. cbn [block_span]. destruct ((p =? 42) && (x =? 47)).
      + now exists s1.
      + apply (IH s1 x l u t ltac:(lia) H1).
  Qed.

  Lemma has_cons r u l : has u l -> has u (r :: l).
  Proof. intros (a & b & ->). now exists (r :: a), b. Qed.

  Lemma has_two x y z l : has [x; y] (z :: l) <-> (z = x /\ hd_rune l = y /\ l <> []) \/ has [x; y] l.
  Proof.
    split.
    - intros (a & b & E). destruct a as [|q a]; cbn in E.
      + injection E as -> ->. now left.
      + injection E as -> ->. right. now exists a, b.
    - intros [(-> & E & N)|H]; [|now apply has_cons]. destruct l as [|q l]; [now elim N|]. cbn in E. subst q. now exists [], l.
  Qed.

  Lemma block_span_none p l : p <> 42 -> block_span p l = None <-> ~ has [42; 47] l.
  Proof.
    enough (G : forall p, block_span p l = None <-> ~ has [42; 47] l /\ ~ (p = 42 /\ hd_rune l = 47)).
    { intros N. rewrite G. tauto. }
    clear p. induction l as [|r l IH]; intros p; cbn [block_span].
    - split; [intros _|reflexivity]. split; [|cbn; lia]. intros (a & b & E). destruct a; discriminate.
    - rewrite has_two. cbn [hd_rune]. destruct ((p =? 42) && (r =? 47)) eqn:E.
      + apply andb_prop in E. rewrite !Z.eqb_eq in E. split; [discriminate|tauto].
      + apply Bool.andb_false_iff in E. rewrite !Z.eqb_neq in E. rewrite IH. split.
        * intros [H1 H2]. split; [|tauto]. intros [(-> & H3 & _)|H3]; tauto.
        * intros [H1 H2]. split; [tauto|]. intros [-> H3]. apply H1. left. repeat split; auto. now intros ->.
  Qed.

  Lemma block_span_some p l l' : p <> 42 -> block_span p l = Some l' <-> exists u, l = u ++ [42; 47] ++ l' /\ ~ has [42; 47] (u ++ [42]).
  Proof.
    enough (G : forall p, block_span p l = Some l' <-> (exists u, l = u ++ [42; 47] ++ l' /\ ~ has [42; 47] (u ++ [42]) /\ ~ (p = 42 /\ hd_rune u = 47)) \/ (p = 42 /\ l = 47 :: l')).
    { intros N. rewrite G. split; [intros [(u & H1 & H2 & _)|[E _]]; [now exists u|contradiction]|]. intros (u & H1 & H2). left. exists u. tauto. }
    clear p. induction l as [|r l IH]; intros p; cbn [block_span].
    - split; [discriminate|]. intros [(u & E & _)|[_ E]]; [destruct u; discriminate|discriminate].
    - destruct ((p =? 42) && (r =? 47)) eqn:E.
      + apply andb_prop in E. rewrite !Z.eqb_eq in E. destruct E as [-> ->]. split.
        * intros [= <-]. right. now split.
        * intros [(u & E & H1 & H2)|[_ E]]; [|now injection E as ->]. destruct u as [|q u]; [discriminate|]. injection E as <- ->. cbn in H2. tauto.
      + apply Bool.andb_false_iff in E. rewrite !Z.eqb_neq in E. rewrite IH. split.
        * intros [(u & -> & H1 & H2)|[-> ->]].
          -- left. exists (r :: u). split; [reflexivity|]. split; [|cbn; tauto]. cbn [app]. rewrite has_two. intros [(-> & H3 & _)|H3]; [|tauto].
             apply H2. split; [reflexivity|]. destruct u; cbn in *; [lia|exact H3].
          -- left. exists []. split; [reflexivity|]. split; [|cbn; lia]. intros (a & b & H). destruct a as [|? [|]]; cbn in H; discriminate.
        * intros [(u & Eq & H1 & H2)|[-> Eq]]; [|injection Eq as -> ->; tauto].
          destruct u as [|q u]; cbn in Eq; injection Eq as -> ->; [now right|]. left. exists u. split; [reflexivity|].
          cbn [app] in H1. rewrite has_two in H1. split; [tauto|]. intros [-> H3]. apply H1. left. split; [reflexivity|].
          destruct u; cbn in *; [lia|]. split; [exact H3|discriminate].
  Qed.
End Words.
