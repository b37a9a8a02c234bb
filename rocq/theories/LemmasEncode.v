(** Proofs about encode/encode.go. *)

From Verif Require Import ModelEncode SpecEncode LemmasBase.
From Coq Require Import ZifyBool ZifyNat.

Lemma lor_shift_add a b s :
  0 <= s -> 0 <= a < 2 ^ s -> Z.lor a (b * 2 ^ s) = a + b * 2 ^ s.
Proof.
  intros Hs Ha.
  assert (Z.land a (b * 2 ^ s) = 0) as H.
  { apply Z.bits_inj'. intros i Hi. rewrite Z.land_spec, Z.bits_0.
    destruct (Z.ltb_spec i s).
    - rewrite Z.mul_pow2_bits_low by lia. apply andb_false_r.
    - destruct (Z.eq_dec a 0) as [->|]; [now rewrite Z.bits_0|].
      rewrite (Z.bits_above_log2 a i); [easy|lia|].
      apply Z.log2_lt_pow2; [lia|].
      apply Z.lt_le_trans with (2 ^ s); [lia|]. apply Z.pow_le_mono_r; lia. }
  rewrite <- Z.lxor_lor by exact H. now rewrite <- Z.add_nocarry_lxor.
Qed.

Lemma land_127 n : Z.land n 127 = n mod 128.
Proof. apply (Z.land_ones n 7). lia. Qed.

Lemma land_1 n : Z.land n 1 = n mod 2.
Proof. apply (Z.land_ones n 1). lia. Qed.

(** [b & 0x80 = 0] says that a byte is below 128. *)
Lemma land_128 c : (Z.land (bz c) 128 =? 0) = (bz c <? 128).
Proof. destruct c; reflexivity. Qed.

(** ** EncodeVarint *)

Lemma encodeVarintLoop_buf fuel buf n :
  encodeVarintLoop fuel buf n = buf ++ encodeVarintLoop fuel [] n.
Proof.
  revert buf n; induction fuel as [|fuel IH]; intros buf n; cbn [encodeVarintLoop].
  - now rewrite app_nil_r.
  - destruct (128 <=? n).
    + rewrite IH, (IH ([] ++ _)). now rewrite <- app_assoc.
    + reflexivity.
Qed.

Lemma encode_digit n : 0 <= n -> bz (zb (Z.lor (Z.land n 127) 128)) = n mod 128 + 128.
Proof.
  intros H. rewrite bz_zb, land_127.
  pose proof (Z.mod_pos_bound n 128).
  change 128 with (1 * 2 ^ 7) at 2. rewrite lor_shift_add by lia.
  change (1 * 2 ^ 7) with 128. rewrite Z.mod_small; lia.
Qed.

Lemma encodeVarintLoop_spec fuel n :
  0 <= n < 128 ^ Z.of_nat fuel -> (0 < fuel)%nat ->
  let e := encodeVarintLoop fuel [] n in
  is_varint e /\ le128 e = n /\ (length e <= fuel)%nat /\
  (n < 128 -> length e = 1%nat) /\ (128 <= n -> last e x00 <> x00).
Proof.
  revert n; induction fuel as [|fuel IH]; intros n Hn Hf; [lia|].
  cbn [encodeVarintLoop].
  destruct (Z.leb_spec 128 n) as [H|H].
  - rewrite encodeVarintLoop_buf. cbn [app].
    rewrite Nat2Z.inj_succ, Z.pow_succ_r in Hn by lia.
    destruct fuel as [|fuel'].
    { cbn in Hn. lia. }
    pose proof (Z.div_mod n 128). pose proof (Z.mod_pos_bound n 128).
    assert (Z.shiftr n 7 = n / 128) as Hs by (apply Z.shiftr_div_pow2; lia).
    rewrite Hs.
    assert (0 <= n / 128 < 128 ^ Z.of_nat (S fuel')) as Hd.
    { split; [lia|]. apply Z.div_lt_upper_bound; lia. }
    specialize (IH (n / 128) Hd ltac:(lia)).
    set (e := encodeVarintLoop (S fuel') [] (n / 128)) in *.
    destruct IH as (IH1 & IH2 & IH3 & IH4 & IH5).
    assert (e <> []) as Hne by (intros He; rewrite He in IH1; exact IH1).
    assert (1 <= n / 128) as Hge1 by (apply Z.div_le_lower_bound; lia).
    repeat split.
    + destruct e as [|e0 e']; [easy|]. split; [|exact IH1].
      rewrite encode_digit by lia. lia.
    + cbn [le128]. rewrite IH2, encode_digit by lia.
      replace (n mod 128 + 128) with (n mod 128 + 1 * 128) by lia.
      rewrite Z_mod_plus_full, Zmod_mod. lia.
    + cbn [length]. lia.
    + lia.
    + intros _. destruct e as [|e0 e'] eqn:Ee; [easy|].
      destruct (Z.ltb_spec (n / 128) 128) as [Hlt|Hge].
      * specialize (IH4 Hlt). destruct e' as [|]; [|easy].
        cbn. cbn in IH2. intros ->. cbn in IH2. lia.
      * specialize (IH5 Hge). exact IH5.
  - cbn [app]. repeat split; try (cbn; lia).
    + cbn. rewrite bz_zb, Z.mod_small; lia.
    + cbn. rewrite bz_zb, (Z.mod_small n 256), (Z.mod_small n 128); lia.
Qed.

Lemma EncodeVarint_spec buf n :
  is_u64 n ->
  exists e, EncodeVarint buf n = buf ++ e /\ is_varint e /\ le128 e = n /\
    (length e <= 10)%nat /\ (n < 128 -> length e = 1%nat) /\ (128 <= n -> last e x00 <> x00).
Proof.
  intros H. unfold EncodeVarint. rewrite encodeVarintLoop_buf.
  exists (encodeVarintLoop 10 [] n). split; [reflexivity|].
  apply (encodeVarintLoop_spec 10 n); [|lia].
  change (128 ^ Z.of_nat 10) with (2 ^ 70). unfold is_u64 in H. lia.
Qed.

(** ** DecodeVarint *)

Lemma le128_bound e : 0 <= le128 e < 128 ^ zlen e.
Proof.
  unfold zlen. induction e as [|b e IH]; cbn [le128 length]; [cbn; lia|].
  rewrite Nat2Z.inj_succ, Z.pow_succ_r by lia.
  pose proof (Z.mod_pos_bound (bz b) 128). lia.
Qed.

Lemma digit_acc k n b :
  0 <= k <= 9 -> 0 <= n < 2 ^ (7 * k) ->
  Z.lor n (u64 (Z.shiftl b (7 * k))) = (n + b * 2 ^ (7 * k)) mod 2 ^ 64.
Proof.
  intros Hk Hn. unfold u64. rewrite Z.shiftl_mul_pow2 by lia.
  assert (2 ^ 64 = 2 ^ (64 - 7 * k) * 2 ^ (7 * k)) as E.
  { rewrite <- Z.pow_add_r by lia. f_equal. lia. }
  assert (0 < 2 ^ (64 - 7 * k)) as Hp1 by (apply Z.pow_pos_nonneg; lia).
  assert (0 < 2 ^ (7 * k)) as Hp2 by (apply Z.pow_pos_nonneg; lia).
  rewrite E at 1. rewrite Z.mul_mod_distr_r by lia.
  rewrite lor_shift_add by lia.
  pose proof (Z.mod_pos_bound b (2 ^ (64 - 7 * k)) Hp1) as Hb.
  apply Zmod_unique with (q := b / 2 ^ (64 - 7 * k)).
  - rewrite E. nia.
  - rewrite E.
    pose proof (Z.div_mod b (2 ^ (64 - 7 * k)) ltac:(lia)). nia.
Qed.

(** One characterisation for both directions: what the loop returns after [k]
    digits were already read. *)
Lemma decodeVarintLoop_sound fuel k n buf rest m :
  0 <= k <= 10 -> 0 <= n -> (k <= 9 -> n < 2 ^ (7 * k)) ->
  decodeVarintLoop fuel (7 * k) n buf = Some (rest, m) ->
  exists e, buf = e ++ rest /\ is_varint e /\ zlen e + k <= 10 /\
    m = (n + le128 e * 2 ^ (7 * k)) mod 2 ^ 64.
Proof.
  revert k n buf; induction fuel as [|fuel IH]; intros k n buf Hk Hn0 Hn H;
    cbn [decodeVarintLoop] in H; [easy|].
  destruct (Z.ltb_spec (7 * k) 64) as [H1|H1]; [|easy].
  assert (k <= 9) as Hk9 by lia. specialize (Hn Hk9).
  destruct buf as [|c buf]; [easy|].
  pose proof (bz_range c) as Hc.
  rewrite land_128 in H. rewrite land_127 in H.
  rewrite digit_acc in H by lia.
  pose proof (Z.mod_pos_bound (bz c) 128).
  assert (2 ^ (7 * (k + 1)) = 128 * 2 ^ (7 * k)) as Hpow.
  { replace (7 * (k + 1)) with (7 + 7 * k) by lia. now rewrite Z.pow_add_r by lia. }
  destruct (Z.ltb_spec (bz c) 128) as [Hc1|Hc1].
  - injection H as <- <-. exists [c]. cbn [app is_varint le128].
    repeat split; try easy; [change (zlen [c]) with 1; lia|].
    f_equal. ring.
  - replace (7 * k + 7) with (7 * (k + 1)) in H by lia.
    apply IH in H; [|lia| |].
    + destruct H as (e & -> & He & Hl & ->). exists (c :: e).
      split; [reflexivity|]. split.
      { cbn [is_varint]. destruct e; [easy|]. now split. }
      split; [unfold zlen in *; cbn [length]; lia|].
      cbn [le128]. rewrite Zplus_mod_idemp_l. f_equal. rewrite Hpow. nia.
    + apply Z.mod_pos_bound. lia.
    + intros Hk'. rewrite Z.mod_small.
      * rewrite Hpow. nia.
      * split; [nia|].
        assert (2 ^ (7 * (k + 1)) <= 2 ^ 63) by (apply Z.pow_le_mono_r; lia). nia.
Qed.

Lemma DecodeVarint_sound buf rest m :
  DecodeVarint buf = Some (rest, m) ->
  exists e, buf = e ++ rest /\ is_varint e /\ (length e <= 10)%nat /\ m = le128 e mod 2 ^ 64.
Proof.
  intros H. apply (decodeVarintLoop_sound 11 0 0 buf rest m) in H; try lia.
  destruct H as (e & H1 & H2 & H3 & H4). exists e. repeat split; try easy.
  - unfold zlen in H3. lia.
  - rewrite H4. f_equal. cbn. lia.
Qed.

Lemma decodeVarintLoop_complete fuel k n e rest :
  0 <= k <= 10 -> 0 <= n -> (k <= 9 -> n < 2 ^ (7 * k)) ->
  is_varint e -> zlen e + k <= 10 -> (11 <= Z.of_nat fuel + k) ->
  decodeVarintLoop fuel (7 * k) n (e ++ rest) = Some (rest, (n + le128 e * 2 ^ (7 * k)) mod 2 ^ 64).
Proof.
  revert k n e; induction fuel as [|fuel IH]; intros k n e Hk Hn0 Hn He Hl Hf; [lia|].
  destruct e as [|c e]; [easy|]. unfold zlen in *. cbn [length] in *.
  cbn [decodeVarintLoop app].
  destruct (Z.ltb_spec (7 * k) 64) as [H1|H1]; [|lia].
  assert (k <= 9) as Hk9 by lia. specialize (Hn Hk9).
  pose proof (bz_range c) as Hc.
  rewrite land_128. rewrite land_127. rewrite digit_acc by lia.
  pose proof (Z.mod_pos_bound (bz c) 128).
  assert (2 ^ (7 * (k + 1)) = 128 * 2 ^ (7 * k)) as Hpow.
  { replace (7 * (k + 1)) with (7 + 7 * k) by lia. now rewrite Z.pow_add_r by lia. }
  destruct (Z.ltb_spec (bz c) 128) as [Hc1|Hc1].
  - destruct e as [|c' e]; [|cbn [is_varint] in He; lia].
    cbn [app le128]. do 3 f_equal. ring.
  - destruct e as [|c' e]; [cbn in He; lia|].
    destruct He as [_ He].
    replace (7 * k + 7) with (7 * (k + 1)) by lia.
    rewrite (IH (k + 1)); [|lia| | |exact He|lia|lia].
    + f_equal. f_equal. cbn [le128]. rewrite Zplus_mod_idemp_l. f_equal. rewrite Hpow. nia.
    + apply Z.mod_pos_bound. lia.
    + intros Hk'. rewrite Z.mod_small.
      * rewrite Hpow. nia.
      * split; [nia|]. assert (2 ^ (7 * (k + 1)) <= 2 ^ 63) by (apply Z.pow_le_mono_r; lia).
        nia.
Qed.

Lemma DecodeVarint_complete e rest :
  is_varint e -> (length e <= 10)%nat ->
  DecodeVarint (e ++ rest) = Some (rest, le128 e mod 2 ^ 64).
Proof.
  intros He Hl. unfold DecodeVarint. change 0 with (7 * 0) at 1.
  rewrite (decodeVarintLoop_complete 11 0 0 e rest); try lia; try easy.
  - do 3 f_equal. cbn. lia.
  - unfold zlen. lia.
Qed.

Lemma varint_round_trip_lemma buf n rest :
  is_u64 n ->
  exists e, EncodeVarint buf n = buf ++ e /\
    DecodeVarint (e ++ rest) = Some (rest, n) /\
    is_varint e /\ le128 e = n /\
    (1 <= length e <= 10)%nat /\
    (n < 128 -> length e = 1%nat) /\ (128 <= n -> last e x00 <> x00).
Proof.
  intros H. destruct (EncodeVarint_spec buf n H) as (e & H1 & H2 & H3 & H4 & H5 & H6).
  exists e. split; [exact H1|]. split.
  - rewrite DecodeVarint_complete by easy. rewrite H3. now rewrite Z.mod_small.
  - repeat split; try easy. destruct e; [easy|cbn; lia].
Qed.

Lemma decode_varint_exact buf :
  (forall rest n, DecodeVarint buf = Some (rest, n) <->
     exists e, buf = e ++ rest /\ is_varint e /\ (length e <= 10)%nat /\ n = le128 e mod 2 ^ 64).
Proof.
  intros rest n. split; [apply DecodeVarint_sound|].
  intros (e & -> & H1 & H2 & ->). now apply DecodeVarint_complete.
Qed.

(** ** Zigzag *)

Lemma zigzag_number n :
  is_i64 n ->
  Z.lxor (u64 (Z.shiftl (u64 n) 1)) (u64 (Z.shiftr n 63)) = if n <? 0 then - 2 * n - 1 else 2 * n.
Proof.
  intros H. unfold is_i64 in H.
  rewrite Z.shiftl_mul_pow2, Z.shiftr_div_pow2 by lia. change (2 ^ 1) with 2.
  destruct (Z.ltb_spec n 0) as [Hn|Hn].
  - assert (n / 2 ^ 63 = -1) as ->.
    { symmetry; apply Zdiv_unique with (r := n + 2 ^ 63); lia. }
    rewrite (u64_neg n) by (unfold is_i64; lia).
    assert (u64 ((n + 2 ^ 64) * 2) = 2 * n + 2 ^ 64) as ->.
    { unfold u64. symmetry. apply Zmod_unique with (q := 1); lia. }
    change (u64 (-1)) with (Z.ones 64).
    replace (-2 * n - 1) with (Z.ones 64 - (2 * n + 2 ^ 64)) by (change (Z.ones 64) with (2 ^ 64 - 1); lia).
    rewrite Z.sub_nocarry_ldiff.
    + apply Z.bits_inj'. intros i Hi.
      rewrite Z.lxor_spec, Z.ldiff_spec.
      destruct (Z.ltb_spec i 64).
      * rewrite Z.ones_spec_low by lia. now rewrite xorb_true_r.
      * rewrite Z.ones_spec_high by lia. rewrite xorb_false_r, andb_false_l.
        apply (Z.bits_above_log2 (2 * n + 2 ^ 64)); [lia|].
        destruct (Z.eq_dec (2 * n + 2 ^ 64) 0) as [->|]; [cbn; lia|].
        apply Z.log2_lt_pow2; [lia|].
        apply Z.lt_le_trans with (2 ^ 64); [lia|]. apply Z.pow_le_mono_r; lia.
    + apply Z.bits_inj'. intros i Hi. rewrite Z.ldiff_spec, Z.bits_0.
      destruct (Z.ltb_spec i 64).
      * rewrite Z.ones_spec_low by lia. apply andb_false_r.
      * rewrite Z.ones_spec_high by lia. rewrite andb_true_r.
        destruct (Z.eq_dec (2 * n + 2 ^ 64) 0) as [->|]; [apply Z.bits_0|].
        apply (Z.bits_above_log2 (2 * n + 2 ^ 64)); [lia|].
        apply Z.log2_lt_pow2; [lia|].
        apply Z.lt_le_trans with (2 ^ 64); [lia|]. apply Z.pow_le_mono_r; lia.
  - assert (n / 2 ^ 63 = 0) as ->.
    { symmetry; apply Zdiv_unique with (r := n); lia. }
    rewrite (u64_small n) by (unfold is_u64; lia).
    change (u64 0) with 0. rewrite Z.lxor_0_r. rewrite u64_small by (unfold is_u64; lia). lia.
Qed.

Lemma unzigzag_number n :
  is_u64 n ->
  i64 (Z.lxor (Z.shiftr n 1) (u64 (Z.shiftr (i64 (Z.shiftl (Z.land n 1) 63)) 63)))
  = if n mod 2 =? 0 then n / 2 else - (n / 2) - 1.
Proof.
  intros H. unfold is_u64 in H.
  rewrite land_1. rewrite Z.shiftr_div_pow2 by lia. change (2 ^ 1) with 2.
  pose proof (Z.div_mod n 2). pose proof (Z.mod_pos_bound n 2).
  destruct (Z.eqb_spec (n mod 2) 0) as [E|E].
  - rewrite E. change (u64 (Z.shiftr (i64 (Z.shiftl 0 63)) 63)) with 0.
    rewrite Z.lxor_0_r. apply i64_small. unfold is_i64. lia.
  - assert (n mod 2 = 1) as -> by lia.
    change (u64 (Z.shiftr (i64 (Z.shiftl 1 63)) 63)) with (Z.ones 64).
    assert (Z.lxor (n / 2) (Z.ones 64) = Z.ones 64 - n / 2) as ->.
    { rewrite Z.sub_nocarry_ldiff.
      - apply Z.bits_inj'. intros i Hi. rewrite Z.lxor_spec, Z.ldiff_spec.
        destruct (Z.ltb_spec i 64).
        + rewrite Z.ones_spec_low by lia. now rewrite xorb_true_r.
        + rewrite Z.ones_spec_high by lia. rewrite xorb_false_r, andb_false_l.
          destruct (Z.eq_dec (n / 2) 0) as [->|]; [apply Z.bits_0|].
          apply Z.bits_above_log2; [lia|]. apply Z.log2_lt_pow2; [lia|].
          apply Z.lt_le_trans with (2 ^ 64); [lia|]. apply Z.pow_le_mono_r; lia.
      - apply Z.bits_inj'. intros i Hi. rewrite Z.ldiff_spec, Z.bits_0.
        destruct (Z.ltb_spec i 64).
        + rewrite Z.ones_spec_low by lia. apply andb_false_r.
        + rewrite Z.ones_spec_high by lia. rewrite andb_true_r.
          destruct (Z.eq_dec (n / 2) 0) as [->|]; [apply Z.bits_0|].
          apply Z.bits_above_log2; [lia|]. apply Z.log2_lt_pow2; [lia|].
          apply Z.lt_le_trans with (2 ^ 64); [lia|]. apply Z.pow_le_mono_r; lia. }
    change (Z.ones 64) with (2 ^ 64 - 1).
    unfold i64. rewrite Z.mod_small by lia.
    destruct (Z.ltb_spec (2 ^ 64 - 1 - n / 2) (2 ^ 63)); lia.
Qed.

Lemma zigzag_round_trip_lemma buf n rest :
  is_i64 n ->
  exists e, EncodeZigzag64 buf n = buf ++ e /\
    DecodeZigzag64 (e ++ rest) = Some (rest, n) /\
    (1 <= length e <= 10)%nat /\
    le128 e = (if n <? 0 then - 2 * n - 1 else 2 * n) /\
    (- 64 <= n < 64 -> length e = 1%nat).
Proof.
  intros H. unfold EncodeZigzag64. rewrite zigzag_number by exact H.
  set (z := if n <? 0 then - 2 * n - 1 else 2 * n).
  assert (is_u64 z) as Hz.
  { unfold z, is_u64, is_i64 in *. destruct (Z.ltb_spec n 0); lia. }
  destruct (varint_round_trip_lemma buf z rest Hz) as (e & H1 & H2 & H3 & H4 & H5 & H6 & _).
  exists e. split; [exact H1|]. split.
  - unfold DecodeZigzag64. rewrite H2. rewrite unzigzag_number by exact Hz.
    do 2 f_equal. unfold z.
    destruct (Z.ltb_spec n 0) as [Hn|Hn].
    + assert ((-2 * n - 1) mod 2 = 1) as ->.
      { symmetry; apply Zmod_unique with (q := - n - 1); lia. }
      assert ((-2 * n - 1) / 2 = - n - 1) as ->.
      { symmetry; apply Zdiv_unique with (r := 1); lia. }
      cbn [Z.eqb]. lia.
    + assert ((2 * n) mod 2 = 0) as ->.
      { symmetry; apply Zmod_unique with (q := n); lia. }
      assert ((2 * n) / 2 = n) as ->.
      { symmetry; apply Zdiv_unique with (r := 0); lia. }
      reflexivity.
  - repeat split; try easy. intros Hr. apply H6. unfold z. destruct (Z.ltb_spec n 0); lia.
Qed.

(** ** Fixed width *)

Lemma bz_shift u k : 0 <= k -> bz (zb (Z.shiftr u k)) = (u / 2 ^ k) mod 256.
Proof. intros H. now rewrite bz_zb, Z.shiftr_div_pow2. Qed.

Lemma be256_split8 u : is_u64 u ->
  (u / 2 ^ 56) mod 256 * 2 ^ 56 + (u / 2 ^ 48) mod 256 * 2 ^ 48 + (u / 2 ^ 40) mod 256 * 2 ^ 40 +
  (u / 2 ^ 32) mod 256 * 2 ^ 32 + (u / 2 ^ 24) mod 256 * 2 ^ 24 + (u / 2 ^ 16) mod 256 * 2 ^ 16 +
  (u / 2 ^ 8) mod 256 * 2 ^ 8 + u mod 256 = u.
Proof.
  unfold is_u64; intros H.
  assert (forall k k', 0 <= k -> k' = k + 8 -> u / 2 ^ k' = (u / 2 ^ k) / 256) as Hd.
  { intros k k' Hk ->. rewrite Z.pow_add_r, Z.div_div by lia. reflexivity. }
  rewrite (Hd 48 56), (Hd 40 48), (Hd 32 40), (Hd 24 32), (Hd 16 24), (Hd 8 16) by lia.
  change (2 ^ 8) with 256.
  pose proof (Z.div_mod u 256 ltac:(lia)) as E0.
  set (u1 := u / 256) in *.
  pose proof (Z.div_mod u1 256 ltac:(lia)) as E1. set (u2 := u1 / 256) in *.
  pose proof (Z.div_mod u2 256 ltac:(lia)) as E2. set (u3 := u2 / 256) in *.
  pose proof (Z.div_mod u3 256 ltac:(lia)) as E3. set (u4 := u3 / 256) in *.
  pose proof (Z.div_mod u4 256 ltac:(lia)) as E4. set (u5 := u4 / 256) in *.
  pose proof (Z.div_mod u5 256 ltac:(lia)) as E5. set (u6 := u5 / 256) in *.
  pose proof (Z.div_mod u6 256 ltac:(lia)) as E6. set (u7 := u6 / 256) in *.
  pose proof (Z.mod_pos_bound u 256 ltac:(lia)).
  pose proof (Z.mod_pos_bound u1 256 ltac:(lia)).
  pose proof (Z.mod_pos_bound u2 256 ltac:(lia)).
  pose proof (Z.mod_pos_bound u3 256 ltac:(lia)).
  pose proof (Z.mod_pos_bound u4 256 ltac:(lia)).
  pose proof (Z.mod_pos_bound u5 256 ltac:(lia)).
  pose proof (Z.mod_pos_bound u6 256 ltac:(lia)).
  assert (u7 mod 256 = u7) as -> by (apply Z.mod_small; lia).
  lia.
Qed.

Lemma EncodeUint64_spec buf u :
  is_u64 u -> exists e, EncodeUint64 buf u = buf ++ e /\ length e = 8%nat /\ be256 e = u.
Proof.
  intros H. unfold EncodeUint64. eexists. split; [reflexivity|]. split; [reflexivity|].
  cbn [be256 zlen length]. rewrite !bz_shift, bz_zb by lia.
  pose proof (be256_split8 u H) as E. unfold zlen; cbn [length].
  change (256 ^ Z.of_nat 7) with (2 ^ 56). change (256 ^ Z.of_nat 6) with (2 ^ 48).
  change (256 ^ Z.of_nat 5) with (2 ^ 40). change (256 ^ Z.of_nat 4) with (2 ^ 32).
  change (256 ^ Z.of_nat 3) with (2 ^ 24). change (256 ^ Z.of_nat 2) with (2 ^ 16).
  change (256 ^ Z.of_nat 1) with (2 ^ 8). change (256 ^ Z.of_nat 0) with 1. lia.
Qed.

Lemma EncodeUint32_spec buf u :
  is_u32 u -> exists e, EncodeUint32 buf u = buf ++ e /\ length e = 4%nat /\ be256 e = u.
Proof.
  intros H. unfold EncodeUint32. eexists. split; [reflexivity|]. split; [reflexivity|].
  cbn [be256 zlen length]. rewrite !bz_shift, bz_zb by lia.
  unfold is_u32 in H.
  assert (is_u64 u) as H64 by (unfold is_u64; lia).
  pose proof (be256_split8 u H64) as E. unfold zlen; cbn [length].
  change (256 ^ Z.of_nat 3) with (2 ^ 24). change (256 ^ Z.of_nat 2) with (2 ^ 16).
  change (256 ^ Z.of_nat 1) with (2 ^ 8). change (256 ^ Z.of_nat 0) with 1.
  rewrite (Z.div_small u (2 ^ 32)), (Z.div_small u (2 ^ 40)), (Z.div_small u (2 ^ 48)),
    (Z.div_small u (2 ^ 56)) in E by lia.
  rewrite !Z.mod_0_l in E by lia. lia.
Qed.

Lemma be256_bound e : 0 <= be256 e < 256 ^ zlen e.
Proof.
  unfold zlen. induction e as [|b e IH]; cbn [be256 length]; [cbn; lia|].
  rewrite Nat2Z.inj_succ, Z.pow_succ_r by lia. pose proof (bz_range b). unfold zlen. nia.
Qed.

Lemma be256_compare a b : length a = length b -> bytes_compare a b = (be256 a ?= be256 b).
Proof.
  revert b; induction a as [|x a IH]; intros [|y b] H; cbn in H; try easy.
  cbn [bytes_compare be256]. injection H as H.
  pose proof (be256_bound a) as Ha. pose proof (be256_bound b) as Hb.
  unfold zlen in *. rewrite H in Ha |- *.
  destruct (Z.compare_spec (bz x) (bz y)) as [E|E|E].
  - rewrite IH by exact H. rewrite E. symmetry. apply Zcompare_plus_compat.
  - symmetry. apply Z.compare_lt_iff. nia.
  - symmetry. apply Z.compare_gt_iff. nia.
Qed.

Lemma bytes_compare_app_len a b s t :
  length a = length b ->
  bytes_compare (a ++ s) (b ++ t) =
  match bytes_compare a b with Eq => bytes_compare s t | c => c end.
Proof.
  revert b; induction a as [|x a IH]; intros [|y b] H; cbn in H; try easy.
  injection H as H. cbn [app bytes_compare].
  destruct (bz x ?= bz y); auto.
Qed.

Lemma uint64_order_lemma buf u v :
  is_u64 u -> is_u64 v ->
  bytes_compare (EncodeUint64 buf u) (EncodeUint64 buf v) = (u ?= v).
Proof.
  intros Hu Hv.
  destruct (EncodeUint64_spec buf u Hu) as (e & -> & H1 & <-).
  destruct (EncodeUint64_spec buf v Hv) as (f & -> & H2 & <-).
  rewrite bytes_compare_app. apply be256_compare. congruence.
Qed.

Lemma uint32_order_lemma buf u v :
  is_u32 u -> is_u32 v ->
  bytes_compare (EncodeUint32 buf u) (EncodeUint32 buf v) = (u ?= v).
Proof.
  intros Hu Hv.
  destruct (EncodeUint32_spec buf u Hu) as (e & -> & H1 & <-).
  destruct (EncodeUint32_spec buf v Hv) as (f & -> & H2 & <-).
  rewrite bytes_compare_app. apply be256_compare. congruence.
Qed.

Lemma varint_overflow_witness :
  exists e1 e2 n, e1 <> e2 /\ is_varint e2 /\ 2 ^ 64 <= le128 e2 /\
    DecodeVarint e1 = Some ([], n) /\ DecodeVarint e2 = Some ([], n).
Proof.
  exists [x05], [x85; x80; x80; x80; x80; x80; x80; x80; x80; x02], 5.
  repeat split; vm_compute; congruence.
Qed.
