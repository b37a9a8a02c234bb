(** The scanner accepts the words of the language and nothing else. *)

From Verif Require Import ModelScanner SpecScanner LemmasBase LemmasValue LemmasScanner.

Lemma bad_escape_app a l : bad_escape l -> bad_escape (a ++ l).
Proof. intros (x & w & b & -> & H). exists (a ++ x), w, b. now rewrite <- app_assoc. Qed.
Lemma bad_escape_cons r l : bad_escape l -> bad_escape (r :: l).
Proof. apply (bad_escape_app [r]). Qed.
Lemma bad_escape_suffix l' l : suffix l' l -> bad_escape l' -> bad_escape l.
Proof. intros [w ->]. apply bad_escape_app. Qed.

Lemma utf8_bad r : r < 0 -> utf8_encode r = utf8_encode RuneError.
Proof. intros H. unfold utf8_encode. destruct (Z.ltb_spec r 0); [|lia]. reflexivity. Qed.

Lemma i32_low u : 0 <= u < 2 ^ 31 -> i32 u = u.
Proof.
  intros H. unfold i32. change (2 ^ 31) with 2147483648 in *. change (2 ^ 32) with 4294967296 in *. cbv zeta.
  rewrite Z.mod_small by lia. destruct (Z.ltb_spec u 2147483648); lia.
Qed.
Lemma i32_high u : 2 ^ 31 <= u < 2 ^ 32 -> i32 u = u - 2 ^ 32.
Proof.
  intros H. unfold i32. change (2 ^ 31) with 2147483648 in *. change (2 ^ 32) with 4294967296 in *. cbv zeta.
  rewrite Z.mod_small by lia. destruct (Z.ltb_spec u 2147483648); lia.
Qed.

Section Text.
  Context {X : FloatLib} {L : CaseLib} {U : RuneLib} {B : BufLib}.
  Context (HU : RuneLib_scan U).

  (** ** Escapes *)

  Lemma hex2 w u : hex_number w u -> length w = 2%nat -> exists a b d1 d2, w = [a; b] /\ hex_digit a d1 /\ hex_digit b d2 /\ u = d1 * 16 + d2.
  Proof.
    intros H N. destruct w as [|a [|b [|]]]; try discriminate.
    inversion H as [E|w u1 r d2 H1 H2 E]; subst. destruct w as [|x [|y [|]]]; try discriminate. injection E as -> ->.
    inversion H1 as [E|w u2 r' d1 H3 H4 E]; subst. destruct w as [|y [|]]; try discriminate. injection E as ->.
    inversion H3 as [E|w u3 r' d E1 E2 E]; subst; [|destruct w; discriminate].
    exists a, b, d1, d2. repeat split; auto; lia.
  Qed.

  Lemma hex2_of a b d1 d2 : hex_digit a d1 -> hex_digit b d2 -> hex_number [a; b] (d1 * 16 + d2).
  Proof. intros H1 H2. replace (d1 * 16 + d2) with ((0 * 16 + d1) * 16 + d2) by lia. apply (hn_snoc [a]); [|exact H2]. now apply (hn_snoc []); [constructor|]. Qed.

  Lemma scanUnicode_some w u s c l b t : hex_number w u -> at_ s (w ++ l) b t ->
    exists s', scanUnicode s c (length w) = (s', c, i32 u) /\ at_ s' l b t.
  Proof.
    intros Hn H. unfold scanUnicode. destruct (unicodeLoop_some w u Hn s c l b t 0 H) as (s' & E & H'). rewrite E. cbn [Z.mul]. rewrite Z.add_0_l. now exists s'.
  Qed.

  Lemma scanHex_some w u s c l b t : hex_number w u -> length w = 2%nat -> at_ s (w ++ l) b t ->
    exists s', scanHex s c = (s', c, u) /\ at_ s' l b t.
  Proof.
    intros Hn N H. destruct (hex2 w u Hn N) as (x & y & d1 & d2 & -> & D1 & D2 & ->). unfold scanHex. cbn [app] in H.
    apply hexval_spec in D1, D2. destruct (hex_digit_some s c _ _ _ _ _ H D1) as (s1 & E1 & H1). rewrite E1.
    destruct (hex_digit_some s1 c _ _ _ _ _ H1 D2) as (s2 & E2 & H2). rewrite E2. now exists s2.
  Qed.

  Lemma scanEscape_some e r s c l b t : escape e r -> at_ s (e ++ l) b t ->
    exists s' r', scanEscape s c = (s', c, r') /\ at_ s' l b t /\ utf8_encode r' = utf8_encode r /\ r' <> -1 /\ r' <> -3.
  Proof.
    intros He H. unfold scanEscape. destruct He as [| | | | | | |w u Hn N|w u Hn N|w u Hn N Hu|w u Hn N H1 H2 H3|x y z Ha Hb Hc|r Hr Ho]; cbn [app] in H;
      destruct (read_cons _ _ _ _ _ H) as (s1 & E & K & _ & Hp); rewrite E.
    1-7: cbn [Z.eqb Pos.eqb]; exists s1; eexists; split; [reflexivity|]; split; [exact K|]; split; [reflexivity|]; split; discriminate.
    - cbn [Z.eqb Pos.eqb]. destruct (scanHex_some w u s1 c l b t Hn N K) as (s2 & E2 & H2). exists s2, u. split; [exact E2|]. split; [exact H2|].
      apply hex_number_range in Hn. split; [reflexivity|]. lia.
    - cbn [Z.eqb Pos.eqb]. rewrite <- N. destruct (scanUnicode_some w u s1 c l b t Hn K) as (s2 & E2 & H2). exists s2, (i32 u). split; [exact E2|]. split; [exact H2|].
      apply hex_number_range in Hn. unfold zlen in Hn. rewrite N in Hn. change (16 ^ Z.of_nat 4) with 65536 in Hn.
      rewrite i32_low by (change (2 ^ 31) with 2147483648; lia). split; [reflexivity|]. lia.
    - cbn [Z.eqb Pos.eqb]. rewrite <- N. destruct (scanUnicode_some w u s1 c l b t Hn K) as (s2 & E2 & H2). exists s2, (i32 u). split; [exact E2|]. split; [exact H2|].
      apply hex_number_range in Hn. rewrite i32_low by lia. split; [reflexivity|]. lia.
    - cbn [Z.eqb Pos.eqb]. rewrite <- N. destruct (scanUnicode_some w u s1 c l b t Hn K) as (s2 & E2 & H4). exists s2, (i32 u). split; [exact E2|]. split; [exact H4|].
      apply hex_number_range in Hn. unfold zlen in Hn. rewrite N in Hn. change (16 ^ Z.of_nat 8) with (2 ^ 32) in Hn.
      rewrite i32_high by lia. split; [|lia]. apply utf8_bad. lia.
    - repeat match goal with |- context [?n + x =? ?k] => destruct (Z.eqb_spec (n + x) k); [exfalso; lia|] end.
      destruct (Z.leb_spec 48 (48 + x)); [|lia]. destruct (Z.leb_spec (48 + x) 55); [|lia]. cbn [andb].
      unfold scanOctal, scanOctalDigit.
      destruct (read_cons _ _ _ _ _ K) as (s2 & E2 & K2 & _). rewrite E2. destruct (Z.leb_spec 48 (48 + y)); [|lia]. destruct (Z.leb_spec (48 + y) 55); [|lia]. cbn [andb].
      destruct (read_cons _ _ _ _ _ K2) as (s3 & E3 & K3 & _). rewrite E3. destruct (Z.leb_spec 48 (48 + z)); [|lia]. destruct (Z.leb_spec (48 + z) 55); [|lia]. cbn [andb].
      exists s3. eexists. split; [reflexivity|]. split; [exact K3|].
      match goal with |- utf8_encode ?a = utf8_encode ?b /\ _ => assert (Q : a = b) end.
      { replace (48 + x - 48) with x by lia. replace (48 + y - 48) with y by lia. replace (48 + z - 48) with z by lia.
        rewrite (Z.mod_small x 256) by lia. rewrite (Z.mod_small (x * 8 + y) 256) by lia. f_equal. lia. }
      rewrite Q. split; [reflexivity|]. pose proof (Z.mod_pos_bound (x * 64 + y * 8 + z) 256 ltac:(lia)). lia.
    - assert (Q : forall k, In k [97; 98; 116; 110; 118; 102; 114; 120; 117; 85] -> (r =? k) = false).
      { intros k Hk. apply Z.eqb_neq. intros ->. now apply Hr. }
      rewrite !Q by (cbn; tauto). replace ((48 <=? r) && (r <=? 55)) with false.
      + exists s1, r. split; [reflexivity|]. split; [exact K|]. split; [reflexivity|]. lia.
      + symmetry. apply Bool.andb_false_iff. destruct (Z.leb_spec 48 r); [right; apply Z.leb_gt; lia|now left].
  Qed.

  Lemma scanHex_any s c l b t : at_ s l b t -> exists s' c' r l', scanHex s c = (s', c', r) /\ at_ s' l' b t /\ suffix l' l /\
    (r = -3 /\ c_error c' <> None \/ c' = c /\ exists w, l = w ++ l' /\ length w = 2%nat /\ hex_number w r).
  Proof.
    intros H. unfold scanHex. destruct (hex_digit_any s c l b t H) as (s1 & H1 & [(r1 & l1 & d1 & -> & D1 & E)|E]); rewrite E.
    - cbn [tl] in H1. destruct (hex_digit_any s1 c l1 b t H1) as (s2 & H2 & [(r2 & l2 & d2 & -> & D2 & E2)|E2]); rewrite E2.
      + cbn [tl] in H2. exists s2, c, (d1 * 16 + d2), l2. split; [reflexivity|]. split; [exact H2|]. split; [now exists [r1; r2]|]. right. split; [reflexivity|].
        exists [r1; r2]. split; [reflexivity|]. split; [reflexivity|]. apply hex2_of; now apply hexval_spec.
      + do 4 eexists. split; [reflexivity|]. split; [exact H2|]. split; [apply suffix_cons, suffix_tl|]. left. split; [reflexivity|]. discriminate.
    - do 4 eexists. split; [reflexivity|]. split; [exact H1|]. split; [apply suffix_tl|]. left. split; [reflexivity|]. discriminate.
  Qed.

  Lemma unicodeLoop_any' n : forall s c l b t w a, at_ s l b t -> hex_number w a ->
    exists s' l' c', at_ s' l' b t /\ suffix l' l /\
      (unicodeLoop n s c a = (s', c', None) /\ c_error c' <> None \/
       exists v u, l = v ++ l' /\ length v = n /\ hex_number (w ++ v) u /\ unicodeLoop n s c a = (s', c, Some u)).
  Proof.
    induction n as [|n IH]; intros s c l b t w a H Hn; cbn [unicodeLoop].
    - exists s, l, c. split; [exact H|]. split; [apply suffix_refl|]. right. exists [], a. now rewrite app_nil_r.
    - destruct (hex_digit_any s c l b t H) as (s' & H1 & [(r & l' & d & -> & E & E')|E']); rewrite E'.
      + cbn [tl] in H1. destruct (IH s' c l' b t (w ++ [r]) (a * 16 + d) H1) as (s2 & l2 & c2 & H2 & S2 & D).
        { constructor; [exact Hn|]. now apply hexval_spec. }
        exists s2, l2, c2. split; [exact H2|]. split; [now apply suffix_cons|]. destruct D as [D|(v & u & -> & D1 & D2 & D3)].
        * now left.
        * right. exists (r :: v), u. split; [reflexivity|]. split; [cbn; now rewrite D1|]. split; [|exact D3]. now rewrite <- app_assoc in D2.
      + exists s', (tl l), (set_error c SHexDigit). split; [exact H1|]. split; [apply suffix_tl|]. left. split; [reflexivity|]. discriminate.
  Qed.

  Lemma scanUnicode_any n s c l b t : at_ s l b t -> exists s' c' r l', scanUnicode s c n = (s', c', r) /\ at_ s' l' b t /\ suffix l' l /\
    (r = -3 /\ c_error c' <> None \/ c' = c /\ exists w u, l = w ++ l' /\ length w = n /\ hex_number w u /\ r = i32 u).
  Proof.
    intros H. unfold scanUnicode. destruct (unicodeLoop_any' n s c l b t [] 0 H hn_nil) as (s' & l' & c' & H1 & S1 & [[E K]|(v & u & -> & N & Hn & E)]); rewrite E.
    - exists s', c', (-3), l'. split; [reflexivity|]. split; [exact H1|]. split; [exact S1|]. left. now split.
    - exists s', c, (i32 u), l'. split; [reflexivity|]. split; [exact H1|]. split; [exact S1|]. right. split; [reflexivity|]. now exists v, u.
  Qed.

  Lemma octal_any s c l b t : at_ s l b t ->
    exists s', at_ s' (tl l) b t /\
      ((exists d l', l = 48 + d :: l' /\ 0 <= d <= 7 /\ scanOctalDigit s c = (s', c, Some d)) \/ scanOctalDigit s c = (s', set_error c SOctalDigit, None)).
  Proof.
    intros H. destruct (read_any _ _ _ _ H) as (s' & R & H1 & _ & Hp & _). unfold scanOctalDigit. rewrite R. exists s'. split; [exact H1|].
    destruct ((48 <=? hd_rune l) && (hd_rune l <=? 55)) eqn:E.
    - left. apply andb_prop in E. destruct E as [E1 E2]. apply Z.leb_le in E1, E2. destruct l as [|r l]; cbn [hd_rune] in *; [lia|].
      exists (r - 48), l. split; [f_equal; lia|]. split; [lia|reflexivity].
    - right. destruct (Z.eqb_spec (hd_rune l) (-3)); [lia|reflexivity].
  Qed.

  Lemma scanEscape_any s c l b t : at_ s l b t -> exists s' c' r l', scanEscape s c = (s', c', r) /\ at_ s' l' b t /\ suffix l' l /\
    (r = -1 \/ r = -3 /\ (c_error c' <> None \/ bad_escape (92 :: l)) \/
     c' = c /\ r <> -1 /\ r <> -3 /\ exists e r', l = e ++ l' /\ escape e r' /\ utf8_encode r = utf8_encode r').
  Proof.
    intros H. unfold scanEscape. destruct l as [|r l].
    { destruct (read_nil _ _ _ H) as (s1 & E & K & _). rewrite E. cbn. exists s1, c, (-1), []. split; [reflexivity|]. split; [exact K|]. split; [apply suffix_refl|]. now left. }
    destruct (read_cons _ _ _ _ _ H) as (s1 & E & K & _ & Hp). rewrite E.
    assert (One : forall k v, escape [k] v -> v <> -1 -> v <> -3 -> exists s' c' r0 l', (s1, c, v) = (s', c', r0) /\ at_ s' l' b t /\ suffix l' (k :: l) /\
      (r0 = -1 \/ r0 = -3 /\ (c_error c' <> None \/ bad_escape (92 :: k :: l)) \/
       c' = c /\ r0 <> -1 /\ r0 <> -3 /\ exists e r', k :: l = e ++ l' /\ escape e r' /\ utf8_encode r0 = utf8_encode r')).
    { intros k v He N1 N3. exists s1, c, v, l. split; [reflexivity|]. split; [exact K|]. split; [now exists [k]|]. right. right. repeat split; auto.
      exists [k], v. now repeat split. }
    destruct (Z.eqb_spec r 97) as [->|N1]; [apply One; [constructor|lia|lia]|].
    destruct (Z.eqb_spec r 98) as [->|N2]; [apply One; [constructor|lia|lia]|].
    destruct (Z.eqb_spec r 116) as [->|N3]; [apply One; [constructor|lia|lia]|].
    destruct (Z.eqb_spec r 110) as [->|N4]; [apply One; [constructor|lia|lia]|].
    destruct (Z.eqb_spec r 118) as [->|N5]; [apply One; [constructor|lia|lia]|].
    destruct (Z.eqb_spec r 102) as [->|N6]; [apply One; [constructor|lia|lia]|].
    destruct (Z.eqb_spec r 114) as [->|N7]; [apply One; [constructor|lia|lia]|].
    destruct (Z.eqb_spec r 120) as [->|N8].
    { destruct (scanHex_any s1 c l b t K) as (s' & c' & r & l' & E' & H' & S' & D). exists s', c', r, l'. split; [exact E'|]. split; [exact H'|].
      split; [now apply suffix_cons|]. destruct D as [[-> D]|(-> & w & -> & N & Hn)]; [right; left; now split; [|left]|]. right. right.
      pose proof (hex_number_range _ _ Hn). split; [reflexivity|]. split; [lia|]. split; [lia|]. exists (120 :: w), r. repeat split. now constructor. }
    destruct (Z.eqb_spec r 117) as [->|N9].
    { destruct (scanUnicode_any 4 s1 c l b t K) as (s' & c' & r & l' & E' & H' & S' & D). exists s', c', r, l'. split; [exact E'|]. split; [exact H'|].
      split; [now apply suffix_cons|]. destruct D as [[-> D]|(-> & w & u & -> & N & Hn & ->)]; [right; left; now split; [|left]|]. right. right.
      pose proof (hex_number_range _ _ Hn) as Hr. unfold zlen in Hr. rewrite N in Hr. change (16 ^ Z.of_nat 4) with 65536 in Hr.
      rewrite i32_low by (change (2 ^ 31) with 2147483648; lia).
      split; [reflexivity|]. split; [lia|]. split; [lia|]. exists (117 :: w), u. repeat split. now apply esc_short. }
    destruct (Z.eqb_spec r 85) as [->|N10].
    { destruct (scanUnicode_any 8 s1 c l b t K) as (s' & c' & r & l' & E' & H' & S' & D). exists s', c', r, l'. split; [exact E'|]. split; [exact H'|].
      split; [now apply suffix_cons|]. destruct D as [[-> D]|(-> & w & u & -> & N & Hn & ->)]; [right; left; now split; [|left]|].
      pose proof (hex_number_range _ _ Hn) as Hr. unfold zlen in Hr. rewrite N in Hr. change (16 ^ Z.of_nat 8) with (2 ^ 32) in Hr.
      destruct (Z_lt_le_dec u (2 ^ 31)) as [Lo|Hi].
      - right. right. rewrite i32_low by lia. split; [reflexivity|]. split; [lia|]. split; [lia|]. exists (85 :: w), u. repeat split. now apply esc_long.
      - rewrite i32_high by lia. destruct (Z.eq_dec u (2 ^ 32 - 1)) as [->|M1]; [left; lia|].
        destruct (Z.eq_dec u (2 ^ 32 - 3)) as [->|M3].
        + right. left. split; [lia|]. right. exists [], w, l'. now repeat split.
        + right. right. split; [reflexivity|]. split; [lia|]. split; [lia|]. exists (85 :: w), RuneError. split; [reflexivity|]. split; [now apply (esc_beyond w u)|].
          apply utf8_bad. lia. }
    destruct ((48 <=? r) && (r <=? 55)) eqn:O.
    { apply andb_prop in O. destruct O as [O1 O2]. apply Z.leb_le in O1, O2. unfold scanOctal.
      destruct (octal_any s1 c l b t K) as (s2 & K2 & [(d & l2 & -> & Hd & E2)|E2]); rewrite E2.
      - cbn [tl] in K2. destruct (octal_any s2 c l2 b t K2) as (s3 & K3 & [(d3 & l3 & -> & Hd3 & E3)|E3]); rewrite E3.
        + cbn [tl] in K3. do 3 eexists. exists l3. split; [reflexivity|]. split; [exact K3|]. split; [now exists [r; 48 + d; 48 + d3]|]. right. right.
          replace ((((r - 48) mod 256 * 8 + d) mod 256 * 8 + d3) mod 256) with (((r - 48) * 64 + d * 8 + d3) mod 256).
          * pose proof (Z.mod_pos_bound ((r - 48) * 64 + d * 8 + d3) 256 ltac:(lia)). split; [reflexivity|]. split; [lia|]. split; [lia|].
            exists [48 + (r - 48); 48 + d; 48 + d3]. eexists. split; [cbn; f_equal; lia|]. split; [apply esc_octal; lia|reflexivity].
          * rewrite (Z.mod_small (r - 48) 256) by lia. rewrite (Z.mod_small ((r - 48) * 8 + d) 256) by lia. f_equal. lia.
        + do 4 eexists. split; [reflexivity|]. split; [exact K3|]. split; [apply suffix_cons, suffix_cons, suffix_tl|]. right. left. split; [reflexivity|]. left. discriminate.
      - do 4 eexists. split; [reflexivity|]. split; [exact K2|]. split; [apply suffix_cons, suffix_tl|]. right. left. split; [reflexivity|]. left. discriminate. }
    apply One; [|lia|lia]. apply esc_other.
    - cbn. intros Q. repeat destruct Q as [Q|Q]; try contradiction; congruence.
    - apply Bool.andb_false_iff in O. rewrite !Z.leb_gt in O. lia.
  Qed.
End Text.
