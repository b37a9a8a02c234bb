(** Casts are exact. *)

From Verif Require Import ModelValue SpecCast LemmasBase LemmasFloat LemmasValue.
From Coq Require Import ZifyBool ZifyNat.

(** ** Floats *)

Lemma scaled_val p : is_u64 p ->
  scaled p = if f_mag p <? mag_max then Some (f_val p) else None.
Proof.
  intros Hp. unfold scaled, sf_of_bits, mag_max. rewrite exp_of, frac_of by exact Hp.
  fold (f_sign p). unfold f_val, f_magval.
  pose proof (f_mag_range p) as Hr.
  pose proof (Z.div_mod (f_mag p) (2 ^ 52) ltac:(lia)) as E.
  pose proof (Z.mod_pos_bound (f_mag p) (2 ^ 52) ltac:(lia)) as Hb.
  assert (0 <= f_mag p / 2 ^ 52) as He by (apply Z.div_pos; lia).
  set (e := f_mag p / 2 ^ 52) in *. set (m := f_mag p mod 2 ^ 52) in *.
  set (g := f_mag p) in *. clearbody e m g.
  destruct (Z.ltb_spec g (2047 * 2 ^ 52)) as [Hg|Hg].
  - destruct (Z.eqb_spec e 2047) as [E1|E1]; [exfalso; lia|].
    destruct (Z.eqb_spec e 0) as [E2|E2].
    + destruct m as [|m'|m'] eqn:Em; [|..|exfalso; lia].
      * destruct (f_sign p); reflexivity.
      * change (-1074 + 1074) with 0. change (2 ^ 0) with 1. rewrite Z.mul_1_r.
        destruct (f_sign p); reflexivity.
    + destruct (m + 2 ^ 52) as [|m'|m'] eqn:Em; [exfalso; lia| |exfalso; lia].
      replace (e - 1075 + 1074) with (e - 1) by lia. rewrite (Z.add_comm (2 ^ 52) m), Em.
      destruct (f_sign p); [|reflexivity]. change (Z.neg m') with (- Z.pos m'). now rewrite Z.mul_opp_l.
  - destruct (Z.eqb_spec e 2047) as [E1|E1]; [destruct (m =? 0); reflexivity|exfalso; lia].
Qed.

Lemma f_mag_pos m : 0 <= m < 2 ^ 63 -> f_mag m = m /\ f_sign m = false.
Proof. intros H. split; [apply Z.mod_small; exact H|]. unfold f_sign. apply Z.leb_gt. lia. Qed.

Lemma f_mag_neg m : 0 <= m < 2 ^ 63 -> f_mag (m + 2 ^ 63) = m /\ f_sign (m + 2 ^ 63) = true.
Proof.
  intros H. split.
  - unfold f_mag. replace (m + 2 ^ 63) with (m + 1 * 2 ^ 63) by lia.
    rewrite Z_mod_plus_full. apply Z.mod_small. exact H.
  - unfold f_sign. apply Z.leb_le. lia.
Qed.

(** A pattern with the exponent [e] and the mantissa [q], which may be the one
    of the next exponent. *)
Lemma magval_of e q : 1 <= e -> 2 ^ 52 <= q <= 2 ^ 53 ->
  f_magval (e * 2 ^ 52 + (q - 2 ^ 52)) = q * 2 ^ (e - 1).
Proof.
  intros He Hq. unfold f_magval. destruct (Z.eq_dec q (2 ^ 53)) as [E|E].
  - replace (e * 2 ^ 52 + (q - 2 ^ 52)) with ((e + 1) * 2 ^ 52) by lia.
    rewrite Z.div_mul, Z.mod_mul by lia.
    destruct (Z.eqb_spec (e + 1) 0); [lia|].
    replace (e + 1 - 1) with (Z.succ (e - 1)) by lia. rewrite Z.pow_succ_r by lia.
    rewrite E. change (2 ^ 53) with (2 ^ 52 * 2). ring.
  - assert ((e * 2 ^ 52 + (q - 2 ^ 52)) / 2 ^ 52 = e) as ->.
    { rewrite Z.div_add_l by lia. rewrite Z.div_small by lia. lia. }
    assert ((e * 2 ^ 52 + (q - 2 ^ 52)) mod 2 ^ 52 = q - 2 ^ 52) as ->.
    { rewrite Z.add_comm, Z_mod_plus_full. apply Z.mod_small. lia. }
    destruct (Z.eqb_spec e 0); [lia|]. f_equal. lia.
Qed.

(** The float for a positive integer is one of two neighbours. *)
Lemma f_of_int_near i : 0 < i < 2 ^ 64 ->
  exists m, 0 < m < 1100 * 2 ^ 52 /\
    f_magval m <= i * 2 ^ 1074 < f_magval (m + 1) /\
    (f_of_int i = m /\
       (i * 2 ^ 1074 - f_magval m < f_magval (m + 1) - i * 2 ^ 1074 \/
        i * 2 ^ 1074 - f_magval m = f_magval (m + 1) - i * 2 ^ 1074 /\ Z.even m = true) \/
     f_of_int i = m + 1 /\
       (f_magval (m + 1) - i * 2 ^ 1074 < i * 2 ^ 1074 - f_magval m \/
        f_magval (m + 1) - i * 2 ^ 1074 = i * 2 ^ 1074 - f_magval m /\ Z.even (m + 1) = true)).
Proof.
  intros Hi. unfold f_of_int. destruct (Z.eqb_spec i 0) as [E|_]; [lia|].
  destruct (Z.ltb_spec i 0) as [E|_]; [lia|].
  rewrite Z.abs_eq by lia.
  set (k := Z.log2 i).
  pose proof (Z.log2_spec i ltac:(lia)) as Hk. fold k in Hk.
  pose proof (Z.log2_nonneg i) as Hk0. fold k in Hk0.
  assert (k <= 63) as Hk63.
  { unfold k. enough (Z.log2 i < 64) by lia. apply Z.log2_lt_pow2; lia. }
  clearbody k. rewrite Z.pow_succ_r in Hk by lia.
  assert (forall e q, k + 1023 = e -> 2 ^ 52 <= q < 2 ^ 53 ->
    0 < e * 2 ^ 52 + (q - 2 ^ 52) < 1100 * 2 ^ 52 /\
    f_magval (e * 2 ^ 52 + (q - 2 ^ 52)) = q * 2 ^ (k + 1022) /\
    f_magval (e * 2 ^ 52 + (q - 2 ^ 52) + 1) = (q + 1) * 2 ^ (k + 1022) /\
    Z.even (e * 2 ^ 52 + (q - 2 ^ 52)) = Z.even q) as Hm.
  { intros e q He Hq. split; [nia|]. rewrite magval_of by lia.
    replace (e * 2 ^ 52 + (q - 2 ^ 52) + 1) with (e * 2 ^ 52 + (q + 1 - 2 ^ 52)) by lia.
    rewrite magval_of by lia. replace (e - 1) with (k + 1022) by lia.
    split; [reflexivity|]. split; [reflexivity|].
    rewrite Z.even_add, Z.even_sub, Z.even_mul. change (Z.even (2 ^ 52)) with true.
    rewrite orb_true_r. destruct (Z.even q); reflexivity. }
  destruct (Z.leb_spec k 52) as [Hc|Hc].
  - assert (2 ^ 52 = 2 ^ k * 2 ^ (52 - k)) as E by (rewrite <- Z.pow_add_r by lia; f_equal; lia).
    assert (0 < 2 ^ (52 - k)) as Hpos by (apply Z.pow_pos_nonneg; lia).
    assert (2 ^ 52 <= i * 2 ^ (52 - k) < 2 ^ 53) as Hq.
    { change (2 ^ 53) with (2 * 2 ^ 52). rewrite E. clear - Hk Hpos. nia. }
    destruct (Hm _ _ eq_refl Hq) as (H1 & H2 & H3 & H4).
    assert (i * 2 ^ (52 - k) * 2 ^ (k + 1022) = i * 2 ^ 1074) as Ev.
    { rewrite <- Z.mul_assoc, <- Z.pow_add_r by lia. do 2 f_equal. lia. }
    rewrite (Z.mul_add_distr_r (i * 2 ^ (52 - k)) 1), Ev in H3. rewrite Ev in H2.
    assert (0 < 2 ^ (k + 1022)) as HP by (apply Z.pow_pos_nonneg; lia).
    eexists. split; [exact H1|]. rewrite H2, H3.
    set (P := 2 ^ (k + 1022)) in *. set (I := i * 2 ^ 1074). clearbody P I.
    split; [lia|]. left. split; [reflexivity|]. left. lia.
  - cbv zeta. set (s := k - 52).
    assert (2 ^ k = 2 ^ 52 * 2 ^ s) as E by (rewrite <- Z.pow_add_r by (unfold s; lia); f_equal; unfold s; lia).
    assert (0 < 2 ^ (s - 1)) as Hh by (apply Z.pow_pos_nonneg; unfold s; lia).
    assert (2 ^ s = 2 * 2 ^ (s - 1)) as Es.
    { rewrite <- Z.pow_succ_r by (unfold s; lia). f_equal. lia. }
    pose proof (Z.div_mod i (2 ^ s) ltac:(lia)) as Hd.
    pose proof (Z.mod_pos_bound i (2 ^ s) ltac:(lia)) as Hr.
    set (q := i / 2 ^ s) in *. set (r := i mod 2 ^ s) in *.
    assert (2 ^ 52 <= q < 2 ^ 53) as Hq.
    { unfold q. split.
      - apply Z.div_le_lower_bound; lia.
      - apply Z.div_lt_upper_bound; [lia|]. change (2 ^ 53) with (2 * 2 ^ 52). lia. }
    destruct (Hm _ _ eq_refl Hq) as (H1 & H2 & H3 & H4).
    assert (2 ^ (k + 1022) = 2 ^ s * 2 ^ 1074) as Ek.
    { rewrite <- Z.pow_add_r by (unfold s; lia). f_equal. unfold s. lia. }
    rewrite Ek in H2, H3.
    assert (0 < 2 ^ 1074) as HP by (apply Z.pow_pos_nonneg; lia).
    set (P := 2 ^ 1074) in *. set (h := 2 ^ (s - 1)) in *.
    assert (i * P = q * (2 ^ s * P) + r * P) as Ei by (rewrite Hd at 1; ring).
    eexists. split; [exact H1|]. rewrite H2, H3.
    set (M := (k + 1023) * 2 ^ 52 + (q - 2 ^ 52)) in *.
    assert (0 <= r * P) as Hrp by (clear - Hr HP; nia).
    assert (r * P < 2 ^ s * P) as Hrq by (clear - Hr HP; nia).
    split; [rewrite Ei, Z.mul_add_distr_r; lia|].
    replace ((k + 1023) * 2 ^ 52 +
      ((if (h <? r) || (r =? h) && Z.odd q then q + 1 else q) - 2 ^ 52))
      with (if (h <? r) || (r =? h) && Z.odd q then M + 1 else M)
      by (unfold M; destruct ((h <? r) || (r =? h) && Z.odd q); lia).
    rewrite Ei, !Z.mul_add_distr_r, Es. clearbody P h M r q. clear - Hh HP H4 Hr.
    rewrite Z.even_add, H4. rewrite <- Z.negb_odd. 
    destruct (Z.ltb_spec h r) as [Hl|Hl]; [|destruct (Z.eqb_spec r h) as [He|He]]; cbn [orb andb].
    + right. split; [reflexivity|]. left. nia.
    + subst r. destruct (Z.odd q); cbn [negb].
      * right. split; [reflexivity|]. right. split; [lia|reflexivity].
      * left. split; [reflexivity|]. right. split; [lia|reflexivity].
    + left. split; [reflexivity|]. left. nia.
Qed.

Lemma f_neg_facts p : is_u64 p ->
  is_u64 (f_neg p) /\ f_mag (f_neg p) = f_mag p /\ f_sign (f_neg p) = negb (f_sign p) /\
  f_neg (f_neg p) = p /\ Z.even (f_neg p) = Z.even p.
Proof.
  intros H. split; [now apply f_neg_range|]. split; [apply f_neg_mag|].
  split; [now apply f_neg_sign|]. split.
  - unfold f_neg at 1. rewrite f_neg_sign by exact H. unfold f_neg.
    destruct (f_sign p); cbn [negb]; lia.
  - unfold f_neg. destruct (f_sign p); [rewrite Z.even_sub|rewrite Z.even_add];
      change (Z.even (2 ^ 63)) with true; destruct (Z.even p); reflexivity.
Qed.

Lemma scaled_neg p : is_u64 p -> scaled (f_neg p) = option_map Z.opp (scaled p).
Proof.
  intros H. destruct (f_neg_facts p H) as (H1 & H2 & H3 & _).
  rewrite !scaled_val by assumption. rewrite H2. destruct (f_mag p <? mag_max); [|reflexivity].
  cbn [option_map]. f_equal. unfold f_val. rewrite H2, H3.
  destruct (f_sign p); cbn [negb]; [|reflexivity]. now rewrite Z.opp_involutive.
Qed.

Lemma off_opp i a : off (- i) (- a) = off i a.
Proof.
  unfold off. rewrite <- (Z.abs_opp (a - _)). f_equal. ring.
Qed.

Lemma nearest_neg i p : i <> 0 -> nearest i p -> nearest (- i) (f_neg p).
Proof.
  intros Hi (H1 & _ & a & H3 & H4).
  destruct (f_neg_facts p H1) as (F1 & _ & _ & F4 & F5).
  split; [exact F1|]. split; [intros; lia|]. exists (- a). split; [now rewrite scaled_neg, H3|].
  intros q b Hq Hb. destruct (f_neg_facts q Hq) as (G1 & _).
  specialize (H4 (f_neg q) (- b) G1). rewrite scaled_neg, Hb in H4 by exact Hq.
  specialize (H4 eq_refl). rewrite <- (off_opp i a), <- (off_opp i (- b)), Z.opp_involutive in H4.
  rewrite F5. destruct H4 as [H4|[H4 [E|E]]]; [now left|right; split; [exact H4|left; lia]|].
  right. split; [exact H4|now right].
Qed.

Lemma f_val_pos m : 0 <= m < 2 ^ 63 -> f_val m = f_magval m /\ f_signed m = m.
Proof. intros H. unfold f_val, f_signed. destruct (f_mag_pos m H) as [-> ->]. now split. Qed.

Lemma f_signed_pos p : is_u64 p -> 0 < f_signed p -> f_signed p = p.
Proof.
  intros H. pose proof (p_split p H) as E. unfold f_signed in *. pose proof (f_mag_range p).
  destruct (f_sign p); intros; [lia|]. rewrite Z.add_0_l in E. lia.
Qed.

Lemma f_of_int_best i : 0 < i < 2 ^ 64 ->
  0 < f_of_int i < 1100 * 2 ^ 52 + 1 /\
  forall q, is_u64 q ->
    off i (f_val (f_of_int i)) < off i (f_val q) \/
    off i (f_val (f_of_int i)) = off i (f_val q) /\
      (q = f_of_int i \/ Z.even (f_of_int i) = true /\ Z.even q = false).
Proof.
  intros Hi. destruct (f_of_int_near i Hi) as (m & Hm & Hv & Hc).
  split; [destruct Hc as [[-> _]|[-> _]]; lia|].
  intros q Hq.
  destruct (f_val_pos m ltac:(lia)) as [V0 S0].
  destruct (f_val_pos (m + 1) ltac:(lia)) as [V1 S1].
  pose proof (f_val_compare q m) as C0. pose proof (f_val_compare q (m + 1)) as C1.
  rewrite S0 in C0. rewrite S1 in C1.
  pose proof (f_signed_pos q Hq) as Hsp.
  assert (Z.even (m + 1) = negb (Z.even m)) as Ev by (rewrite Z.even_add; now destruct (Z.even m)).
  rewrite Ev in Hc.
  rewrite <- V0, <- V1 in Hv, Hc. unfold off.
  set (P := i * 2 ^ 1074) in *. clearbody P. set (vm := f_val m) in *. set (vn := f_val (m + 1)) in *.
  set (vq := f_val q) in *.
  assert (f_val (f_of_int i) = if f_of_int i =? m then vm else vn) as Ef.
  { destruct (Z.eqb_spec (f_of_int i) m) as [->|Hne]; [reflexivity|].
    destruct Hc as [[E _]|[-> _]]; [congruence|reflexivity]. }
  rewrite Ef. clear Ef V0 V1 S0 S1.
  assert (f_signed q < m /\ vq < vm \/ q = m /\ vq = vm \/ q = m + 1 /\ vq = vn \/ m + 1 < f_signed q /\ vn < vq) as Hcase.
  { destruct (Z.compare_spec (f_signed q) m) as [E|E|E].
    - right. left. apply Z.compare_eq in C0. split; [lia|exact C0].
    - left. split; [exact E|]. now apply Z.compare_lt_iff in C0.
    - right. right. destruct (Z.compare_spec (f_signed q) (m + 1)) as [F|F|F].
      + left. apply Z.compare_eq in C1. split; [lia|exact C1].
      + lia.
      + right. split; [exact F|]. now apply Z.compare_gt_iff in C1. }
  clear C0 C1. clearbody vm vn vq.
  destruct (Z.eqb_spec (f_of_int i) m) as [E|E].
  - destruct Hc as [[_ Hc]|[F _]]; [|lia].
    destruct Hcase as [[_ Hx]|[[Hx Hy]|[[Hx Hy]|[_ Hx]]]].
    + left. lia.
    + right. split; [now rewrite Hy|left; congruence].
    + subst vq. destruct Hc as [Hc|[Hc He]]; [left; lia|].
      right. split; [lia|right]. rewrite E, Hx, Ev, He. now split.
    + left. lia.
  - destruct Hc as [[F _]|[F Hc]]; [lia|].
    destruct Hcase as [[_ Hx]|[[Hx Hy]|[[Hx Hy]|[_ Hx]]]].
    + left. lia.
    + subst vq. destruct Hc as [Hc|[Hc He]]; [left; lia|].
      right. split; [lia|right]. rewrite F, Hx, Ev, He. split; [reflexivity|]. now destruct (Z.even m).
    + right. split; [now rewrite Hy|left; congruence].
    + left. lia.
Qed.

Lemma scaled_some p a : is_u64 p -> scaled p = Some a -> a = f_val p.
Proof. intros H. rewrite scaled_val by exact H. destruct (_ <? _); congruence. Qed.

Lemma nearest_pos i p : 0 < i < 2 ^ 64 -> (nearest i p <-> p = f_of_int i).
Proof.
  intros Hi. destruct (f_of_int_best i Hi) as [Hr Hb].
  set (P := f_of_int i) in *.
  assert (is_u64 P) as HP by (unfold is_u64; lia).
  assert (scaled P = Some (f_val P)) as HS.
  { rewrite scaled_val by exact HP. destruct (f_mag_pos P ltac:(lia)) as [-> _].
    destruct (Z.ltb_spec P mag_max) as [|Hx]; [reflexivity|]. unfold mag_max in Hx. lia. }
  split.
  - intros (H1 & _ & a & H3 & H4).
    specialize (H4 P (f_val P) HP HS). apply scaled_some in H3; [|exact H1]. subst a.
    destruct (Hb p H1) as [H|[H [E|[E1 E2]]]]; [lia|exact E|].
    destruct H4 as [H4|[_ [H4|H4]]]; [lia| |congruence].
    pose proof (f_val_compare P p) as C. rewrite H4, Z.compare_refl in C. symmetry in C.
    apply Z.compare_eq in C. destruct (f_val_pos P ltac:(lia)) as [_ S]. rewrite S in C.
    pose proof (f_signed_pos p H1). lia.
  - intros ->. split; [exact HP|]. split; [lia|]. exists (f_val P). split; [exact HS|].
    intros q b Hq Hs. apply scaled_some in Hs; [|exact Hq]. subst b.
    destruct (Hb q Hq) as [H|[H [E|[E1 E2]]]]; [now left|right; split; [exact H|left; congruence]|].
    right. split; [exact H|now right].
Qed.

Lemma f_of_int_neg i : 0 < i < 2 ^ 64 -> f_of_int (- i) = f_neg (f_of_int i).
Proof.
  intros Hi. destruct (f_of_int_best i Hi) as [Hr _].
  unfold f_neg. destruct (f_mag_pos (f_of_int i) ltac:(lia)) as [_ ->].
  unfold f_of_int. rewrite Z.abs_opp.
  destruct (Z.eqb_spec i 0); [lia|]. destruct (Z.eqb_spec (- i) 0); [lia|].
  destruct (Z.ltb_spec i 0); [lia|]. destruct (Z.ltb_spec (- i) 0); [|lia]. reflexivity.
Qed.

Lemma nearest_spec i p : is_i64 i -> (nearest i p <-> p = f_of_int i).
Proof.
  unfold is_i64. intros Hi. destruct (Z.lt_trichotomy i 0) as [H|[->|H]].
  - destruct (f_of_int_best (- i) ltac:(lia)) as [Hr _].
    assert (is_u64 (f_of_int (- i))) as HP by (unfold is_u64; lia).
    assert (f_of_int i = f_neg (f_of_int (- i))) as E.
    { rewrite <- (Z.opp_involutive i) at 1. apply f_of_int_neg. lia. }
    rewrite E. split.
    + intros Hn. pose proof Hn as (H1 & _). apply nearest_neg in Hn; [|lia].
      apply nearest_pos in Hn; [|lia]. rewrite <- Hn.
      symmetry. now apply f_neg_facts.
    + intros ->. rewrite <- (Z.opp_involutive i) at 1. apply nearest_neg; [lia|].
      apply nearest_pos; [lia|reflexivity].
  - split; [intros (_ & H & _); now apply H|]. intros ->.
    split; [unfold is_u64; cbv; split; congruence|]. split; [reflexivity|].
    exists 0. split; [reflexivity|]. intros q b Hq Hb. unfold off.
    rewrite Z.mul_0_l, !Z.sub_0_r. change (Z.abs 0) with 0.
    destruct (Z.eq_dec b 0) as [->|Hne]; [right; split; [reflexivity|now left]|left; lia].
  - apply nearest_pos. lia.
Qed.

(** ** Floats to integers *)

Lemma f_isnan_finite p : is_u64 p -> f_mag p < mag_max -> f_isnan p = false.
Proof. intros _ H. unfold f_isnan. apply Z.ltb_ge. unfold mag_max in H. lia. Qed.

Lemma quot_spec a b z : 0 < b ->
  (a ÷ b = z <-> 0 <= a /\ z * b <= a < (z + 1) * b \/ a <= 0 /\ (z - 1) * b < a <= z * b).
Proof.
  intros Hb. pose proof (Z.quot_rem a b ltac:(lia)) as E.
  destruct (Z.le_ge_cases 0 a) as [Ha|Ha].
  - pose proof (Z.rem_bound_pos a b Ha Hb) as Hr. split.
    + intros <-. left. nia.
    + intros [[_ H]|[H1 H2]].
      * assert (z = a ÷ b); [|congruence]. set (q := a ÷ b) in *. clearbody q.
        set (r := Z.rem a b) in *. clearbody r. nia.
      * assert (a = 0) by lia. subst a. rewrite Z.quot_0_l by lia. clear - Hb H2.
        destruct (Z.lt_trichotomy z 0) as [?|[?|?]]; [exfalso; nia|congruence|exfalso; nia].
  - assert (- b < Z.rem a b <= 0) as Hr.
    { pose proof (Z.rem_bound_pos (- a) b ltac:(lia) Hb) as Hr. rewrite Z.rem_opp_l in Hr by lia. lia. }
    split.
    + intros <-. right. nia.
    + intros [[H1 H2]|[_ H]].
      * assert (a = 0) by lia. subst a. rewrite Z.quot_0_l by lia. clear - Hb H2.
        destruct (Z.lt_trichotomy z 0) as [?|[?|?]]; [exfalso; nia|congruence|exfalso; nia].
      * assert (z = a ÷ b); [|congruence]. set (q := a ÷ b) in *. clearbody q.
        set (r := Z.rem a b) in *. clearbody r. nia.
Qed.

Lemma truncated_spec p z : is_u64 p ->
  (truncated p z <-> f_mag p < mag_max /\ Z.quot (f_val p) (2 ^ 1074) = z).
Proof.
  intros Hp. unfold truncated. rewrite scaled_val by exact Hp.
  assert (0 < 2 ^ 1074) as HP by (apply Z.pow_pos_nonneg; lia).
  set (P := 2 ^ 1074) in *. clearbody P. set (mx := mag_max). clearbody mx.
  set (v := f_val p). clearbody v.
  destruct (Z.ltb_spec (f_mag p) mx) as [H|H].
  - rewrite quot_spec by exact HP. split.
    + intros (a & [= <-] & Ha). now split.
    + intros [_ Ha]. now exists v.
  - split; [intros (a & [=] & _)|lia].
Qed.

(** The infinities are out of range. *)
Lemma far_infinite p : is_u64 p -> mag_max <= f_mag p -> f_trunc p = None.
Proof.
  intros Hp H. unfold f_trunc. destruct (f_isnan p) eqn:En; [reflexivity|].
  assert (f_mag p = mag_max) as E.
  { unfold f_isnan in En. apply Z.ltb_ge in En. unfold mag_max in *. lia. }
  unfold f_val. rewrite E. destruct (f_sign p).
  - destruct (Z.leb_spec (- 2 ^ 63) (Z.quot (- f_magval mag_max) (2 ^ 1074))) as [Hc|Hc]; [|reflexivity].
    exfalso. revert Hc. vm_compute. congruence.
  - destruct (Z.ltb_spec (Z.quot (f_magval mag_max) (2 ^ 1074)) (2 ^ 63)) as [Hc|Hc]; [|now rewrite andb_false_r].
    exfalso. revert Hc. vm_compute. congruence.
Qed.

Lemma f_trunc_spec p z : is_u64 p -> (f_trunc p = Some z <-> truncated p z /\ is_i64 z).
Proof.
  intros Hp. rewrite truncated_spec by exact Hp.
  destruct (Z.lt_ge_cases (f_mag p) mag_max) as [H|H].
  - unfold f_trunc. rewrite f_isnan_finite by assumption. cbv zeta. unfold is_i64.
    set (w := Z.quot _ _). clearbody w.
    destruct ((- 2 ^ 63 <=? w) && (w <? 2 ^ 63)) eqn:E.
    + split; [intros [= <-]; split; [now split|lia]|]. intros [[_ ->] _]. reflexivity.
    + split; [discriminate|]. intros [[_ ->] Hz]. lia.
  - rewrite far_infinite by assumption. split; [discriminate|]. intros [[H1 _] _]. lia.
Qed.

(** ** Numerals *)

Lemma dec_value_pos d r : digit d -> d <> x30 -> Forall digit r -> 0 < dec_value (d :: r).
Proof.
  intros Hd Hne Hr. unfold dec_value. cbn [fold_left]. rewrite fold_dec_acc.
  assert (48 < bz d).
  { unfold digit in Hd. destruct (Z.eq_dec (bz d) 48) as [E|E]; [|lia].
    exfalso. apply Hne, bz_inj. exact E. }
  pose proof (fold_dec_nonneg r 0 Hr ltac:(lia)) as Hn. fold (dec_value r) in Hn.
  assert (0 < 10 ^ zlen r) by (apply Z.pow_pos_nonneg; unfold zlen; lia). nia.
Qed.

Definition no_zero (s : bytes) : Prop := match s with [] => True | d :: _ => d <> x30 end.

Lemma dec_value_zero s : Forall digit s -> no_zero s -> dec_value s = 0 -> s = [].
Proof.
  destruct s as [|d r]; [reflexivity|]. intros H Hn E. inversion_clear H.
  pose proof (dec_value_pos d r ltac:(assumption) Hn ltac:(assumption)). lia.
Qed.

Lemma dec_value_inj s t : Forall digit s -> Forall digit t -> no_zero s -> no_zero t ->
  dec_value s = dec_value t -> s = t.
Proof.
  revert t. induction s as [|d s IH] using rev_ind; intros t Hs Ht Ns Nt E.
  - symmetry. apply dec_value_zero; [assumption..|]. now rewrite <- E.
  - destruct (@exists_last _ t) as (t' & e & ->).
    { intros ->. assert (s ++ [d] = []) as F by (apply dec_value_zero; assumption). destruct s; discriminate. }
    apply Forall_app in Hs, Ht. destruct Hs as [Hs Hd], Ht as [Ht He].
    inversion_clear Hd. inversion_clear He. rewrite !dec_value_app in E. unfold digit in *.
    assert (bz d = bz e /\ dec_value s = dec_value t') as [E1 E2] by lia.
    apply bz_inj in E1. subst e. f_equal. apply IH; try assumption.
    + destruct s; [exact Logic.I|exact Ns].
    + destruct t'; [exact Logic.I|exact Nt].
Qed.

Lemma format_int_decimal i : is_i64 i -> decimal i (format_int i).
Proof.
  unfold is_i64. intros H. unfold format_int.
  assert (10 ^ Z.of_nat 20 = 100000000000000000000) as Hp by reflexivity.
  destruct (Z.ltb_spec i 0).
  - destruct (format_digits_spec 20 (- i) []) as (ds & -> & H1 & H2 & H3 & H4); [lia|lia|].
    rewrite app_nil_r. destruct H4 as [H4|(d & r & -> & H4)]; [lia|].
    replace i with (- dec_value (d :: r)) by lia. inversion_clear H2. now constructor.
  - destruct (Z.eq_dec i 0) as [->|Hne]; [constructor|].
    destruct (format_digits_spec 20 i []) as (ds & -> & H1 & H2 & H3 & H4); [lia|lia|].
    rewrite app_nil_r. destruct H4 as [H4|(d & r & -> & H4)]; [lia|].
    rewrite <- H3. inversion_clear H2. now constructor.
Qed.

Lemma decimal_unique i s t : decimal i s -> decimal i t -> s = t.
Proof.
  intros Hs Ht.
  inversion Hs as [E1 E2|d r Hd Hn Hr E1 E2|d r Hd Hn Hr E1 E2]; subst s;
    inversion Ht as [F1 F2|e q He Hm Hq F1 F2|e q He Hm Hq F1 F2]; subst t; try reflexivity;
    try (pose proof (dec_value_pos d r Hd Hn Hr)); try (pose proof (dec_value_pos e q He Hm Hq)); try lia.
  - apply dec_value_inj; try (constructor; assumption); try assumption. lia.
  - f_equal. apply dec_value_inj; try (constructor; assumption); try assumption. lia.
Qed.

Lemma decimal_spec i t : is_i64 i -> (decimal i t <-> t = format_int i).
Proof.
  intros H. split.
  - intros Ht. exact (decimal_unique i _ _ Ht (format_int_decimal i H)).
  - intros ->. now apply format_int_decimal.
Qed.

(** ** UTF-8 *)

Lemma zb_of b x : bz b = x -> zb x = b.
Proof. intros <-. apply zb_bz. Qed.

Lemma bz_small x : 0 <= x < 256 -> bz (zb x) = x.
Proof. intros H. rewrite bz_zb. now apply Z.mod_small. Qed.

Lemma in_range_iff lo hi b : in_range lo hi b = true <-> lo <= bz b <= hi.
Proof. unfold in_range. lia. Qed.

Lemma u8_digit c : 0 <= c mod 64 < 64.
Proof. apply Z.mod_pos_bound. lia. Qed.

(** The first step of [utf8_valid]: it takes off a character. *)
Lemma utf8_valid_char c w s : utf8_char c w -> utf8_valid (w ++ s) = utf8_valid s.
Proof.
  intros H. inversion H as [c' Hc|c' Hc|c' Hc Hn|c' Hc]; subst c' w; cbn [app utf8_valid].
  - rewrite bz_small by lia. destruct (Z.ltb_spec c 128); [reflexivity|lia].
  - pose proof (u8_digit c). pose proof (Z.div_mod c 64 ltac:(lia)).
    unfold in_range. rewrite !bz_small by lia.
    destruct (Z.ltb_spec (192 + c / 64) 128); [lia|].
    destruct ((194 <=? 192 + c / 64) && (192 + c / 64 <=? 223)) eqn:E1; [|lia].
    destruct ((128 <=? 128 + c mod 64) && (128 + c mod 64 <=? 191)) eqn:E2; [|lia]. reflexivity.
  - pose proof (u8_digit c). pose proof (u8_digit (c / 64)).
    pose proof (Z.div_mod c 64 ltac:(lia)). pose proof (Z.div_mod (c / 64) 64 ltac:(lia)) as E.
    rewrite Z.div_div in E by lia. change (64 * 64) with 4096 in E.
    unfold in_range. rewrite !bz_small by lia.
    set (a := c / 4096) in *. set (b := (c / 64) mod 64) in *. set (d := c mod 64) in *.
    set (ab := c / 64) in *. clearbody a b d ab.
    destruct (Z.ltb_spec (224 + a) 128); [lia|].
    destruct ((194 <=? 224 + a) && (224 + a <=? 223)) eqn:E1; [lia|].
    destruct ((224 <=? 224 + a) && (224 + a <=? 239)) eqn:E2; [|lia].
    match goal with |- ?x && utf8_valid s = _ => replace x with true; [reflexivity|] end.
    destruct (Z.eqb_spec (224 + a) 224); destruct (Z.eqb_spec (224 + a) 237); lia.
  - pose proof (u8_digit c). pose proof (u8_digit (c / 64)). pose proof (u8_digit (c / 4096)).
    pose proof (Z.div_mod c 64 ltac:(lia)). pose proof (Z.div_mod (c / 64) 64 ltac:(lia)) as E.
    rewrite Z.div_div in E by lia. change (64 * 64) with 4096 in E.
    pose proof (Z.div_mod (c / 4096) 64 ltac:(lia)) as E'.
    rewrite Z.div_div in E' by lia. change (4096 * 64) with 262144 in E'.
    unfold in_range. rewrite !bz_small by lia.
    set (a := c / 262144) in *. set (b := (c / 4096) mod 64) in *. set (d := (c / 64) mod 64) in *.
    set (f := c mod 64) in *. set (ab := c / 4096) in *. set (abd := c / 64) in *. clearbody a b d f ab abd.
    destruct (Z.ltb_spec (240 + a) 128); [lia|].
    destruct ((194 <=? 240 + a) && (240 + a <=? 223)) eqn:E1; [lia|].
    destruct ((224 <=? 240 + a) && (240 + a <=? 239)) eqn:E2; [lia|].
    destruct ((240 <=? 240 + a) && (240 + a <=? 244)) eqn:E3; [|lia].
    match goal with |- ?x && utf8_valid s = _ => replace x with true; [reflexivity|] end.
    destruct (Z.eqb_spec (240 + a) 240); destruct (Z.eqb_spec (240 + a) 244); lia.
Qed.

Lemma utf8_text_valid s : utf8_text s -> utf8_valid s = true.
Proof.
  induction 1 as [|c w s Hc _ IH]; [reflexivity|]. now rewrite (utf8_valid_char c w s Hc).
Qed.

Lemma utf8_valid_text n s : (length s <= n)%nat -> utf8_valid s = true -> utf8_text s.
Proof.
  revert s. induction n as [|n IH]; intros s Hn H; (destruct s as [|c0 r0]; [constructor|]); cbn [length] in Hn; [lia|].
  cbn [utf8_valid] in H. pose proof (bz_range c0) as R0.
  destruct (Z.ltb_spec (bz c0) 128) as [L|L].
  { change (c0 :: r0) with ([c0] ++ r0). apply (u8_cons (bz c0)); [|apply IH; [lia|exact H]].
    rewrite <- (zb_bz c0) at 2. constructor. lia. }
  destruct r0 as [|c1 r1]; [discriminate|]. pose proof (bz_range c1) as R1.
  destruct (in_range 194 223 c0) eqn:I2.
  { apply andb_true_iff in H. destruct H as [H1 H]. apply in_range_iff in I2, H1.
    change (c0 :: c1 :: r1) with ([c0; c1] ++ r1). set (c := (bz c0 - 192) * 64 + (bz c1 - 128)).
    apply (u8_cons c); [|apply IH; [cbn [length] in Hn; lia|exact H]].
    assert (c / 64 = bz c0 - 192) as D by (unfold c; rewrite Z.div_add_l by lia; rewrite Z.div_small by lia; lia).
    assert (c mod 64 = bz c1 - 128) as M by (unfold c; rewrite Z.add_comm, Z_mod_plus_full; apply Z.mod_small; lia).
    rewrite <- (zb_of c0 (192 + c / 64)) by lia. rewrite <- (zb_of c1 (128 + c mod 64)) by lia.
    constructor. unfold c. lia. }
  destruct r1 as [|c2 r2]; [discriminate|]. pose proof (bz_range c2) as R2.
  destruct (in_range 224 239 c0) eqn:I3.
  { apply andb_true_iff in H. destruct H as [H H3]. apply andb_true_iff in H. destruct H as [H1 H2].
    apply in_range_iff in I3, H1, H2.
    change (c0 :: c1 :: c2 :: r2) with ([c0; c1; c2] ++ r2).
    set (c := ((bz c0 - 224) * 64 + (bz c1 - 128)) * 64 + (bz c2 - 128)).
    assert (128 <= bz c1 <= 191) as B1
      by (destruct (Z.eqb_spec (bz c0) 224), (Z.eqb_spec (bz c0) 237); lia).
    apply (u8_cons c); [|apply IH; [cbn [length] in Hn; lia|exact H3]].
    assert (c / 64 = (bz c0 - 224) * 64 + (bz c1 - 128)) as D by (unfold c; rewrite Z.div_add_l by lia; rewrite Z.div_small by lia; lia).
    assert (c mod 64 = bz c2 - 128) as M by (unfold c; rewrite Z.add_comm, Z_mod_plus_full; apply Z.mod_small; lia).
    assert (c / 4096 = bz c0 - 224) as D2.
    { change 4096 with (64 * 64). rewrite <- Z.div_div, D by lia. rewrite Z.div_add_l by lia; rewrite Z.div_small by lia; lia. }
    assert ((c / 64) mod 64 = bz c1 - 128) as M2.
    { rewrite D, Z.add_comm, Z_mod_plus_full. apply Z.mod_small. lia. }
    rewrite <- (zb_of c0 (224 + c / 4096)) by lia. rewrite <- (zb_of c1 (128 + c / 64 mod 64)) by lia.
    rewrite <- (zb_of c2 (128 + c mod 64)) by lia.
    constructor; unfold c; destruct (Z.eqb_spec (bz c0) 224), (Z.eqb_spec (bz c0) 237); lia. }
  destruct r2 as [|c3 r3]; [discriminate|]. pose proof (bz_range c3) as R3.
  destruct (in_range 240 244 c0) eqn:I4; [|discriminate].
  apply andb_true_iff in H. destruct H as [H H4]. apply andb_true_iff in H. destruct H as [H H3].
  apply andb_true_iff in H. destruct H as [H1 H2].
  apply in_range_iff in I4, H1, H2, H3.
  change (c0 :: c1 :: c2 :: c3 :: r3) with ([c0; c1; c2; c3] ++ r3).
  set (c := (((bz c0 - 240) * 64 + (bz c1 - 128)) * 64 + (bz c2 - 128)) * 64 + (bz c3 - 128)).
  assert (128 <= bz c1 <= 191) as B1
    by (destruct (Z.eqb_spec (bz c0) 240), (Z.eqb_spec (bz c0) 244); lia).
  apply (u8_cons c); [|apply IH; [cbn [length] in Hn; lia|exact H4]].
  assert (c / 64 = ((bz c0 - 240) * 64 + (bz c1 - 128)) * 64 + (bz c2 - 128)) as D
    by (unfold c; rewrite Z.div_add_l by lia; rewrite Z.div_small by lia; lia).
  assert (c mod 64 = bz c3 - 128) as M by (unfold c; rewrite Z.add_comm, Z_mod_plus_full; apply Z.mod_small; lia).
  assert (c / 4096 = (bz c0 - 240) * 64 + (bz c1 - 128)) as D2.
  { change 4096 with (64 * 64). rewrite <- Z.div_div, D by lia. rewrite Z.div_add_l by lia; rewrite Z.div_small by lia; lia. }
  assert ((c / 64) mod 64 = bz c2 - 128) as M2.
  { rewrite D, Z.add_comm, Z_mod_plus_full. apply Z.mod_small. lia. }
  assert (c / 262144 = bz c0 - 240) as D3.
  { change 262144 with (4096 * 64). rewrite <- Z.div_div, D2 by lia. rewrite Z.div_add_l by lia; rewrite Z.div_small by lia; lia. }
  assert ((c / 4096) mod 64 = bz c1 - 128) as M3.
  { rewrite D2, Z.add_comm, Z_mod_plus_full. apply Z.mod_small. lia. }
  rewrite <- (zb_of c0 (240 + c / 262144)) by lia. rewrite <- (zb_of c1 (128 + c / 4096 mod 64)) by lia.
  rewrite <- (zb_of c2 (128 + c / 64 mod 64)) by lia.
  rewrite <- (zb_of c3 (128 + c mod 64)) by lia.
  constructor; unfold c; destruct (Z.eqb_spec (bz c0) 240), (Z.eqb_spec (bz c0) 244); lia.
Qed.

Lemma utf8_valid_spec s : utf8_valid s = true <-> utf8_text s.
Proof.
  split; [now apply utf8_valid_text with (length s)|apply utf8_text_valid].
Qed.

(** ** Blanks *)

Lemma trim_left_head s x r : trim_left s = x :: r -> ~ blank x.
Proof.
  induction s as [|b s IH]; cbn [trim_left]; [discriminate|].
  destruct (is_trim b) eqn:E; [exact IH|]. intros [= <- _] H. apply is_trim_blank in H. congruence.
Qed.

Lemma trim_unpadded s : unpadded (trim s).
Proof.
  unfold trim. split; intros x r H.
  - destruct (trim_left_spec (rev (trim_left s))) as (a & E & _).
    apply (f_equal (@rev byte)) in E. rewrite rev_involutive, rev_app_distr, H in E.
    apply (trim_left_head s x (r ++ rev a)). exact E.
  - apply (f_equal (@rev byte)) in H. rewrite rev_involutive, rev_app_distr in H.
    exact (trim_left_head _ _ _ H).
Qed.

Section Casts.
  Context {X : FloatLib}.

  Lemma cast_spec vt v w : wf_value v -> (CastValue vt v = Ok w <-> casts vt v w).
  Proof.
    intros Hv. split.
    - destruct v as [|b|s|s|p|i]; [intros [= <-]; constructor|..]; destruct vt; try discriminate.
      + intros [= <-]. constructor.
      + intros H. destruct (CastValue_type BoolType (VString s) w ltac:(discriminate) H) as [b ->].
        apply cast_text_bool_lemma in H. destruct H as (l & t & r & -> & Hl & Hr & Ht).
        now constructor.
      + intros [= <-]. constructor.
      + intros [= <-]. constructor.
      + cbn [CastValue]. destruct (x_parse_float (trim s)) as [d|] eqn:E; [|discriminate].
        intros [= <-]. destruct (trim_spec s) as (l & r & Hs & Hl & Hr). rewrite Hs.
        constructor; try assumption. apply trim_unpadded.
      + intros H. destruct (CastValue_type Int64Type (VString s) w ltac:(discriminate) H) as [i ->].
        apply cast_text_int_lemma in H. destruct H as (l & t & r & -> & Hl & Hr & Ht & Hi).
        now constructor.
      + cbn [CastValue]. destruct (utf8_valid s) eqn:E; [|discriminate]. intros [= <-].
        constructor. now apply utf8_valid_spec.
      + intros [= <-]. constructor.
      + intros [= <-]. constructor.
      + intros [= <-]. constructor.
      + cbn [CastValue]. unfold float_to_int. cbn in Hv. intros [= <-].
        destruct (f_trunc p) as [z|] eqn:E.
        * apply f_trunc_spec in E; [|exact Hv]. now constructor.
        * apply c_float_far. intros z Hz Hi.
          assert (f_trunc p = Some z) as F by (apply f_trunc_spec; [exact Hv|now split]). congruence.
      + intros [= <-]. constructor. now apply format_int_decimal.
      + intros [= <-]. constructor. apply nearest_spec; [exact Hv|reflexivity].
      + intros [= <-]. constructor.
    - intros H. destruct H; try reflexivity.
      + apply cast_text_bool_lemma. now exists l, t, r.
      + cbn [CastValue]. do 2 f_equal. symmetry. now apply decimal_spec.
      + cbn [CastValue]. now rewrite (proj2 (utf8_valid_spec s)).
      + cbn [CastValue]. do 2 f_equal. symmetry. now apply nearest_spec.
      + cbn [CastValue]. destruct H1. rewrite trim_pad by assumption. now rewrite H2.
      + cbn [CastValue]. unfold float_to_int. now rewrite (proj2 (f_trunc_spec p z Hv)) by now split.
      + cbn [CastValue]. unfold float_to_int. destruct (f_trunc p) as [z|] eqn:E; [|reflexivity].
        apply f_trunc_spec in E; [|exact Hv]. destruct (H z); tauto.
      + apply cast_text_int_lemma. now exists l, t, r.
  Qed.

  Lemma cast_fails vt v : wf_value v -> vt <> UnknownType ->
    (CastValue vt v = Err ErrCast <-> forall w, ~ casts vt v w).
  Proof.
    intros Hv Ht. split.
    - intros H w Hw. apply cast_spec in Hw; [|exact Hv]. congruence.
    - intros H. destruct (CastValue vt v) as [w|e|] eqn:E.
      + apply cast_spec in E; [|exact Hv]. now apply H in E.
      + destruct v, vt; cbn [CastValue] in E; try discriminate; try congruence;
          repeat match type of E with
          | (if ?c then _ else _) = _ => destruct c; try discriminate; try congruence
          | (match ?c with Some _ => _ | None => _ end) = _ => destruct c; try discriminate; try congruence
          end.
      + destruct v, vt; cbn [CastValue] in E; try discriminate; try congruence;
          repeat match type of E with
          | (if ?c then _ else _) = _ => destruct c; try discriminate
          | (match ?c with Some _ => _ | None => _ end) = _ => destruct c; try discriminate
          end.
  Qed.

  (** What is done with the value once it has the type. *)
  Definition fits (ct : coltype) (u : value) : res value :=
    match u with
    | VString s | VBytes s => if ct_size ct <? u32 (zlen s) then Err ErrTooLong else Ok u
    | VInt i =>
        if (ct_size ct =? 2) && ((32767 <? i) || (i <? -32768)) then Err ErrIntRange
        else if (ct_size ct =? 4) && ((2147483647 <? i) || (i <? -2147483648)) then Err ErrIntRange
        else Ok u
    | _ => Ok u
    end.

  Lemma convert_steps ct v : v <> VNull -> ct_type ct <> UnknownType ->
    ConvertValue ct v = rbind (CastValue (ct_type ct) v) (fits ct).
  Proof.
    intros Hn Ht. destruct (CastValue (ct_type ct) v) as [u|e|] eqn:E.
    - pose proof (CastValue_type _ _ _ Hn E) as Hty.
      destruct v; try congruence; cbn [ConvertValue]; rewrite E; cbn [rbind];
        destruct (ct_type ct); try tauto; destruct Hty as [x ->]; reflexivity.
    - destruct v; try congruence; cbn [ConvertValue]; rewrite E; reflexivity.
    - destruct v; try congruence; cbn [ConvertValue]; rewrite E; reflexivity.
  Qed.

  Lemma fits_spec ct v u :
    casts (ct_type ct) v u -> v <> VNull -> short_texts (ct_type ct) v -> wf_value v ->
    (admits ct u /\ fits ct u = Ok u) \/
    (~ admits ct u /\ exists s, (u = VString s \/ u = VBytes s) /\ ct_size ct < zlen s /\ fits ct u = Err ErrTooLong) \/
    (~ admits ct u /\ exists i, u = VInt i /\ fits ct u = Err ErrIntRange).
  Proof.
    intros Hc Hn Hs Hw.
    assert (CastValue (ct_type ct) v = Ok u) as Hu by now apply cast_spec.
    pose proof (CastValue_type _ _ _ Hn Hu) as Hty. clear Hu.
    destruct (ct_type ct) eqn:Ect; try tauto; destruct Hty as [x ->]; cbn [fits admits]; rewrite ?Ect.
    - left. split; reflexivity.
    - rewrite u32_len by (apply Hs; tauto).
      destruct (Z.ltb_spec (ct_size ct) (zlen x)) as [L|L].
      + right. left. split; [intros [_ H]; lia|]. exists x. split; [now left|]. now split.
      + left. split; [now split|reflexivity].
    - rewrite u32_len by (apply Hs; tauto).
      destruct (Z.ltb_spec (ct_size ct) (zlen x)) as [L|L].
      + right. left. split; [intros [_ H]; lia|]. exists x. split; [now right|]. now split.
      + left. split; [now split|reflexivity].
    - left. split; reflexivity.
    - destruct ((ct_size ct =? 2) && ((32767 <? x) || (x <? -32768))) eqn:E1.
      + right. right. split; [intros (_ & H & _); lia|]. now exists x.
      + destruct ((ct_size ct =? 4) && ((2147483647 <? x) || (x <? -2147483648))) eqn:E2.
        * right. right. split; [intros (_ & _ & H); lia|]. now exists x.
        * left. split; [split; [reflexivity|lia]|reflexivity].
  Qed.

  Lemma convert_spec ct v w :
    wf_value v -> ct_type ct <> UnknownType -> short_texts (ct_type ct) v ->
    (ConvertValue ct v = Ok w <-> casts (ct_type ct) v w /\ admits ct w).
  Proof.
    intros Hv Ht Hs. destruct (match v with VNull => true | _ => false end) eqn:En.
    { destruct v; try discriminate. cbn [ConvertValue]. split.
      - destruct (ct_notnull ct) eqn:E; [discriminate|]. intros [= <-]. split; [constructor|exact E].
      - intros [Hc Ha]. apply cast_spec in Hc; [|exact Logic.I]. injection Hc as <-. cbn in Ha. now rewrite Ha. }
    assert (v <> VNull) as Hn by now destruct v.
    rewrite convert_steps by assumption. split.
    - destruct (CastValue (ct_type ct) v) as [u|e|] eqn:E; try discriminate. cbn [rbind]. intros H.
      apply cast_spec in E; [|exact Hv].
      destruct (fits_spec ct v u E Hn Hs Hv) as [[H1 H2]|[[_ (s & _ & _ & H2)]|[_ (i & _ & H2)]]]; rewrite H2 in H.
      + injection H as <-. now split.
      + discriminate.
      + discriminate.
    - intros [Hc Ha]. pose proof Hc as Hu. apply cast_spec in Hu; [|exact Hv]. rewrite Hu. cbn [rbind].
      destruct (fits_spec ct v w Hc Hn Hs Hv) as [[_ H2]|[[H1 _]|[H1 _]]]; tauto.
  Qed.

  Lemma convert_refused ct v e :
    wf_value v -> ct_type ct <> UnknownType -> short_texts (ct_type ct) v ->
    (ConvertValue ct v = Err e <-> refused ct v e).
  Proof.
    intros Hv Ht Hs. destruct (match v with VNull => true | _ => false end) eqn:En.
    { destruct v; try discriminate. cbn [ConvertValue]. split.
      - destruct (ct_notnull ct) eqn:E; [|discriminate]. intros [= <-]. now split.
      - assert (forall w, casts (ct_type ct) VNull w -> w = VNull) as Hnull.
        { intros w Hc. apply cast_spec in Hc; [|exact Logic.I]. now injection Hc as <-. }
        destruct e; cbn [refused]; try tauto.
        + intros [_ ->]. reflexivity.
        + intros H. exfalso. apply (H VNull). constructor.
        + intros (s & _ & [Hc|Hc]); apply Hnull in Hc; discriminate.
        + intros (i & Hc & _). apply Hnull in Hc. discriminate. }
    assert (v <> VNull) as Hn by now destruct v.
    rewrite convert_steps by assumption.
    destruct (CastValue (ct_type ct) v) as [u|e'|] eqn:E.
    - cbn [rbind]. assert (forall w, casts (ct_type ct) v w <-> w = u) as Hc.
      { intros w. split; [|intros ->; now apply cast_spec].
        intros H. apply cast_spec in H; [|exact Hv]. congruence. }
      pose proof (proj2 (Hc u) eq_refl) as Hu.
      split.
      + intros H. destruct (fits_spec ct v u Hu Hn Hs Hv) as [[H1 H2]|[[_ (s & Hx & Hl & H2)]|[H1 (i & -> & H2)]]];
          rewrite H2 in H; [discriminate|..]; injection H as <-.
        * exists s. split; [exact Hl|]. destruct Hx as [-> | ->]; tauto.
        * exists i. now split.
      + intros H. destruct e; cbn [refused] in H; try tauto.
        * now destruct (H u).
        * destruct H as (s & Hl & [H|H]); apply Hc in H; subst u; cbn [fits];
            rewrite u32_len by (apply Hs; tauto);
            (destruct (Z.ltb_spec (ct_size ct) (zlen s)); [reflexivity|lia]).
        * destruct H as (i & H & Ha). apply Hc in H. subst u.
          destruct (fits_spec ct v _ Hu Hn Hs Hv) as [[H1 H2]|[[_ (s & [Hx|Hx] & _)]|[H1 (j & _ & H2)]]];
            [tauto|discriminate|discriminate|exact H2].
    - assert (e' = ErrCast) as ->.
      { destruct (CastValue (ct_type ct) v) eqn:F; try discriminate.
        destruct v, (ct_type ct); cbn [CastValue] in F; try discriminate; try congruence;
          repeat match type of F with
          | (if ?c then _ else _) = _ => destruct c; try discriminate; try congruence
          | (match ?c with Some _ => _ | None => _ end) = _ => destruct c; try discriminate; try congruence
          end. }
      pose proof (proj1 (cast_fails _ _ Hv Ht) E) as Hf. cbn [rbind]. split.
      + intros [= <-]. exact Hf.
      + intros H. destruct e; cbn [refused] in H; try tauto; try reflexivity.
        * destruct H as (s & _ & [H|H]); now apply Hf in H.
        * destruct H as (i & H & _). now apply Hf in H.
    - exfalso. apply (ConvertValue_no_panic ct v Ht). now rewrite convert_steps, E by assumption.
  Qed.

  (** The length is compared in 32 bits. *)
  Lemma convert_long_witness :
    exists ct v w, ct_type ct = StringType /\ ConvertValue ct v = Ok w /\ ~ admits ct w.
  Proof.
    exists {| ct_type := StringType; ct_size := 10; ct_fixed := false; ct_notnull := false |}.
    set (s := repeat x41 (Z.to_nat (2 ^ 32))).
    assert (zlen s = 2 ^ 32) as E.
    { unfold zlen, s. rewrite repeat_length. apply Z2Nat.id. lia. }
    clearbody s. exists (VString s), (VString s). split; [reflexivity|]. split.
    - cbn [ConvertValue CastValue ct_type rbind ct_size]. rewrite E. reflexivity.
    - cbn [admits ct_size]. rewrite E. intros [_ H]. lia.
  Qed.

  (** The error of a row is that of its first value that is refused. *)
  Lemma convertRowLoop_err cts r e : (length r <= length cts)%nat ->
    (convertRowLoop cts r = Err e <->
     exists i ct v, nth_error cts i = Some ct /\ nth_error r i = Some v /\ ConvertValue ct v = Err e /\
       forall j ct' v', (j < i)%nat -> nth_error cts j = Some ct' -> nth_error r j = Some v' ->
         exists w, ConvertValue ct' v' = Ok w).
  Proof.
    revert r; induction cts as [|ct cts IH]; intros r Hl.
    - cbn [convertRowLoop]. split; [discriminate|]. intros (i & ct & v & H & _). destruct i; discriminate.
    - destruct r as [|v r]; cbn [convertRowLoop].
      + split; [discriminate|]. intros (i & ct' & v & _ & H & _). destruct i; discriminate.
      + cbn [length] in Hl. specialize (IH r ltac:(lia)).
        destruct (ConvertValue ct v) as [v1|e1|] eqn:Ev; cbn [rbind].
        * assert (rbind (convertRowLoop cts r) (fun nrow => Ok (v1 :: nrow)) = Err e <-> convertRowLoop cts r = Err e) as ->.
          { destruct (convertRowLoop cts r); cbn [rbind]; split; congruence. }
          rewrite IH. split.
          -- intros (i & ct' & u & H1 & H2 & H3 & H4). exists (S i), ct', u.
             split; [exact H1|]. split; [exact H2|]. split; [exact H3|].
             intros [|j] c' u' Hj; cbn [nth_error].
             ++ intros [= <-] [= <-]. now exists v1.
             ++ apply H4. lia.
          -- intros ([|i] & ct' & u & H1 & H2 & H3 & H4); cbn [nth_error] in H1, H2.
             ++ injection H1 as <-. injection H2 as <-. congruence.
             ++ exists i, ct', u. split; [exact H1|]. split; [exact H2|]. split; [exact H3|].
                intros j c' u' Hj. apply (H4 (S j)). lia.
        * split.
          -- intros [= <-]. exists 0%nat, ct, v. split; [reflexivity|]. split; [reflexivity|].
             split; [exact Ev|]. intros; lia.
          -- intros ([|i] & ct' & u & H1 & H2 & H3 & H4); cbn [nth_error] in H1, H2.
             ++ injection H1 as <-. injection H2 as <-. rewrite Ev in H3. injection H3 as <-. reflexivity.
             ++ destruct (H4 0%nat ct v ltac:(lia) eq_refl eq_refl) as [w Hw]. congruence.
        * split; [discriminate|].
          intros ([|i] & ct' & u & H1 & H2 & H3 & H4); cbn [nth_error] in H1, H2.
          -- injection H1 as <-. injection H2 as <-. congruence.
          -- destruct (H4 0%nat ct v ltac:(lia) eq_refl eq_refl) as [w Hw]. congruence.
  Qed.

  Lemma convert_row_err cts r e :
    ConvertRow cts r = Err e <->
    (length cts < length r)%nat /\ e = ErrRowTooLong \/
    (length r <= length cts)%nat /\
    exists i ct v, nth_error cts i = Some ct /\ nth_error r i = Some v /\ ConvertValue ct v = Err e /\
      forall j ct' v', (j < i)%nat -> nth_error cts j = Some ct' -> nth_error r j = Some v' ->
        exists w, ConvertValue ct' v' = Ok w.
  Proof.
    unfold ConvertRow, zlen. destruct (Z.ltb_spec (Z.of_nat (length cts)) (Z.of_nat (length r))) as [L|L].
    - split; [intros [= <-]; left; split; [lia|reflexivity]|]. intros [[_ ->]|[H _]]; [reflexivity|lia].
    - rewrite convertRowLoop_err by lia. split; [intros H; right; split; [lia|exact H]|].
      intros [[H _]|[_ H]]; [lia|exact H].
  Qed.

  Lemma int_float_witness :
    exists p, CastValue Float64Type (VInt 9007199254740993) = Ok (VFloat p) /\
      float_is_int p 9007199254740992.
  Proof. exists 4845873199050653696. split; vm_compute; reflexivity. Qed.

  Lemma float_int_witness :
    exists p i, scaled p = None /\ is_u64 p /\ CastValue Int64Type (VFloat p) = Ok (VInt i).
  Proof.
    exists (2047 * 2 ^ 52), (float_to_int (2047 * 2 ^ 52)). split; [vm_compute; reflexivity|].
    split; [unfold is_u64; lia|reflexivity].
  Qed.
End Casts.

(** ** Comparison *)

Lemma before_compare s : forall t, bytes_compare s t = Lt <-> before s t.
Proof.
  induction s as [|x s IH]; intros [|y t]; cbn [bytes_compare].
  - split; [discriminate|]. intros [(x & r & H)|(p & x & y & r & r' & H & _)]; [discriminate H|destruct p; discriminate H].
  - split; [|auto]. intros _. left. now exists y, t.
  - split; [discriminate|]. intros [(z & r & H)|(p & z & w & r & r' & _ & H & _)]; [discriminate H|destruct p; discriminate H].
  - destruct (Z.compare_spec (bz x) (bz y)) as [E|E|E].
    + apply bz_inj in E as ->. rewrite IH. split.
      * intros [(z & r & ->)|(p & z & w & r & r' & -> & -> & H)]; [left; now exists z, r|right]. now exists (y :: p), z, w, r, r'.
      * intros [(z & r & H)|(p & z & w & r & r' & H1 & H2 & H)]; [left; injection H as H; now exists z, r|].
        destruct p as [|b p]; cbn in H1, H2; inversion H1; inversion H2; subst; [lia|]. right. now exists p, z, w, r, r'.
    + split; [|auto]. intros _. right. now exists [], x, y, s, t.
    + split; [discriminate|]. intros [(z & r & H)|(p & z & w & r & r' & H1 & H2 & H)]; [injection H as H _; subst; lia|].
      destruct p as [|b p]; cbn in H1, H2; inversion H1; inversion H2; subst; lia.
Qed.
Lemma text_compare s t c : bytes_compare s t = c <-> text_order s t c.
Proof.
  split.
  - intros <-. destruct (bytes_compare s t) eqn:E; [apply bytes_compare_eq in E as ->; constructor|apply before_compare in E; now constructor|].
    constructor. apply before_compare. rewrite bytes_compare_antisym, E. reflexivity.
  - intros H. destruct H as [s|s t H|s t H]; [apply bytes_compare_refl|now apply before_compare|]. apply before_compare in H. rewrite bytes_compare_antisym, H. reflexivity.
Qed.
Lemma compare_ieee p q : is_u64 p -> is_u64 q -> compare_floats p q = ieee p q.
Proof. intros Hp Hq. unfold compare_floats, ieee. now rewrite f_cmp_ieee. Qed.

Theorem compare_exact v w c : wf_value v -> wf_value w -> (Compare v w = Some c <-> compares v w c).
Proof.
  intros Hv Hw. split.
  - intros H. destruct v as [|a|s|s|p|i], w as [|b|t|t|q|j]; cbn in H; injection H as <-; cbn in Hv, Hw;
      try (match goal with |- compares ?v ?w ?c => change c with (kind_rank v ?= kind_rank w) end; constructor; discriminate).
    + replace (if a then if b then Eq else Gt else if b then Lt else Eq) with (bool_order a b) by (destruct a, b; reflexivity). constructor.
    + constructor. now apply text_compare.
    + constructor. now apply text_compare.
    + rewrite compare_ieee by assumption. constructor.
    + rewrite compare_ieee by (assumption || now apply f_of_int_u64). constructor. now apply nearest_spec.
    + rewrite compare_ieee by (assumption || now apply f_of_int_u64). constructor. now apply nearest_spec.
    + replace (if i <? j then Lt else if j <? i then Gt else Eq) with (i ?= j); [constructor|]. destruct (Z.compare_spec i j); destruct (Z.ltb_spec i j), (Z.ltb_spec j i); lia || reflexivity.
  - intros H. destruct H as [v w H| |a b|i j|p q|i p q H|p i q H|s t c H|s t c H]; cbn in Hv, Hw; cbn.
    + destruct v, w; cbn in H; try (now destruct H); reflexivity.
    + reflexivity.
    + destruct a, b; reflexivity.
    + f_equal. destruct (Z.compare_spec i j); destruct (Z.ltb_spec i j), (Z.ltb_spec j i); lia || reflexivity.
    + now rewrite compare_ieee.
    + apply nearest_spec in H as ->; [|exact Hv]. rewrite compare_ieee; [reflexivity|now apply f_of_int_u64|exact Hw].
    + apply nearest_spec in H as ->; [|exact Hw]. rewrite compare_ieee; [reflexivity|exact Hv|now apply f_of_int_u64].
    + f_equal. now apply text_compare.
    + f_equal. now apply text_compare.
Qed.
