(** The float comparison of the model is IEEE comparison. *)

From Verif Require Import ModelFloat SpecValue LemmasBase.
From Coq Require Import ZifyBool ZifyNat.

Definition mag_max := 2047 * 2 ^ 52.

Lemma f_mag_range p : 0 <= f_mag p < 2 ^ 63.
Proof. unfold f_mag. apply Z.mod_pos_bound. lia. Qed.

Lemma p_split p : is_u64 p -> p = (if f_sign p then 2 ^ 63 else 0) + f_mag p.
Proof.
  unfold is_u64, f_sign, f_mag. intros H.
  destruct (Z.leb_spec (2 ^ 63) p).
  - assert (p mod 2 ^ 63 = p - 2 ^ 63) as ->; [|lia].
    symmetry. apply Zmod_unique with (q := 1); lia.
  - rewrite Z.mod_small; lia.
Qed.

Lemma f_magval_zero m : 0 <= m -> f_magval m = 0 -> m = 0.
Proof.
  unfold f_magval. intros Hm.
  pose proof (Z.div_mod m (2 ^ 52)). pose proof (Z.mod_pos_bound m (2 ^ 52)).
  destruct (Z.eqb_spec (m / 2 ^ 52) 0); [lia|].
  assert (0 <= m / 2 ^ 52) by (apply Z.div_pos; lia).
  assert (0 < 2 ^ (m / 2 ^ 52 - 1)) by (apply Z.pow_pos_nonneg; lia). nia.
Qed.

Lemma f_magval_mono m n : 0 <= m -> m < n -> f_magval m < f_magval n.
Proof.
  unfold f_magval. intros Hm Hn.
  pose proof (Z.div_mod m (2 ^ 52) ltac:(lia)). pose proof (Z.mod_pos_bound m (2 ^ 52) ltac:(lia)).
  pose proof (Z.div_mod n (2 ^ 52) ltac:(lia)). pose proof (Z.mod_pos_bound n (2 ^ 52) ltac:(lia)).
  assert (0 <= m / 2 ^ 52) by (apply Z.div_pos; lia).
  assert (m / 2 ^ 52 <= n / 2 ^ 52) as Hle by (apply Z.div_le_mono; lia).
  set (e := m / 2 ^ 52) in *. set (f := n / 2 ^ 52) in *.
  set (a := m mod 2 ^ 52) in *. set (b := n mod 2 ^ 52) in *.
  destruct (Z.eqb_spec e 0) as [He|He], (Z.eqb_spec f 0) as [Hf|Hf].
  - lia.
  - assert (1 <= 2 ^ (f - 1)).
    { change 1 with (2 ^ 0). apply Z.pow_le_mono_r; lia. }
    apply Z.lt_le_trans with (2 ^ 52 * 1); [lia|]. apply Z.mul_le_mono_nonneg; lia.
  - lia.
  - assert (0 < 2 ^ (e - 1)) by (apply Z.pow_pos_nonneg; lia).
    destruct (Z.eq_dec e f) as [<-|Hne].
    + apply Z.mul_lt_mono_pos_r; lia.
    + assert (2 * 2 ^ (e - 1) <= 2 ^ (f - 1)).
      { rewrite <- Z.pow_succ_r by lia. apply Z.pow_le_mono_r; lia. }
      assert (0 < 2 ^ (f - 1)) by (apply Z.pow_pos_nonneg; lia).
      apply Z.lt_le_trans with ((2 * 2 ^ 52) * 2 ^ (e - 1)).
      * apply Z.mul_lt_mono_pos_r; lia.
      * replace (2 * 2 ^ 52 * 2 ^ (e - 1)) with (2 ^ 52 * (2 * 2 ^ (e - 1))) by ring.
        apply Z.mul_le_mono_nonneg; lia.
Qed.

Lemma f_magval_nonneg m : 0 <= m -> 0 <= f_magval m.
Proof.
  intros H. destruct (Z.eq_dec m 0) as [->|]; [vm_compute; congruence|].
  pose proof (f_magval_mono 0 m). change (f_magval 0) with 0 in *. lia.
Qed.

Lemma f_magval_compare m n : 0 <= m -> 0 <= n -> (f_magval m ?= f_magval n) = (m ?= n).
Proof.
  intros Hm Hn. destruct (Z.compare_spec m n) as [->|H|H].
  - apply Z.compare_refl.
  - apply Z.compare_lt_iff, f_magval_mono; lia.
  - apply Z.compare_gt_iff, f_magval_mono; lia.
Qed.

(** The signed magnitude of a pattern: numbers are in the order of these. *)
Definition f_signed (p : Z) : Z := if f_sign p then - f_mag p else f_mag p.

Lemma f_val_compare p q : (f_val p ?= f_val q) = (f_signed p ?= f_signed q).
Proof.
  unfold f_val, f_signed.
  pose proof (f_mag_range p). pose proof (f_mag_range q).
  destruct (f_sign p), (f_sign q).
  - rewrite !Z.compare_opp. apply f_magval_compare; lia.
  - pose proof (f_magval_nonneg (f_mag p)). pose proof (f_magval_nonneg (f_mag q)).
    pose proof (f_magval_zero (f_mag p)). pose proof (f_magval_zero (f_mag q)).
    destruct (Z.eq_dec (f_mag p) 0) as [E|E], (Z.eq_dec (f_mag q) 0) as [F|F];
      rewrite ?E, ?F; try reflexivity; change (f_magval 0) with 0 in *.
    + rewrite (proj2 (Z.compare_lt_iff (- 0) (f_magval (f_mag q)))), (proj2 (Z.compare_lt_iff (- 0) (f_mag q))) by lia.
      reflexivity.
    + rewrite (proj2 (Z.compare_lt_iff (- f_magval (f_mag p)) 0)), (proj2 (Z.compare_lt_iff (- f_mag p) 0)) by lia.
      reflexivity.
    + rewrite (proj2 (Z.compare_lt_iff (- f_magval (f_mag p)) (f_magval (f_mag q)))), (proj2 (Z.compare_lt_iff (- f_mag p) (f_mag q))) by lia.
      reflexivity.
  - pose proof (f_magval_nonneg (f_mag p)). pose proof (f_magval_nonneg (f_mag q)).
    pose proof (f_magval_zero (f_mag p)). pose proof (f_magval_zero (f_mag q)).
    destruct (Z.eq_dec (f_mag p) 0) as [E|E], (Z.eq_dec (f_mag q) 0) as [F|F];
      rewrite ?E, ?F; try reflexivity; change (f_magval 0) with 0 in *.
    + rewrite (proj2 (Z.compare_gt_iff 0 (- f_magval (f_mag q)))), (proj2 (Z.compare_gt_iff 0 (- f_mag q))) by lia.
      reflexivity.
    + rewrite (proj2 (Z.compare_gt_iff (f_magval (f_mag p)) (- 0))), (proj2 (Z.compare_gt_iff (f_mag p) (- 0))) by lia.
      reflexivity.
    + rewrite (proj2 (Z.compare_gt_iff (f_magval (f_mag p)) (- f_magval (f_mag q)))), (proj2 (Z.compare_gt_iff (f_mag p) (- f_mag q))) by lia.
      reflexivity.
  - apply f_magval_compare; lia.
Qed.

(** ** The standard library's floats *)

Lemma exp_of p : is_u64 p -> (p / 2 ^ 52) mod 2 ^ 11 = f_mag p / 2 ^ 52.
Proof.
  intros H. rewrite (p_split p H) at 1. pose proof (f_mag_range p).
  pose proof (Z.div_pos (f_mag p) (2 ^ 52)).
  assert (f_mag p / 2 ^ 52 < 2 ^ 11) by (apply Z.div_lt_upper_bound; lia).
  destruct (f_sign p).
  - replace (2 ^ 63 + f_mag p) with (f_mag p + 2 ^ 11 * 2 ^ 52) by lia.
    rewrite Z.div_add by lia.
    replace (f_mag p / 2 ^ 52 + 2 ^ 11) with (f_mag p / 2 ^ 52 + 1 * 2 ^ 11) by lia.
    rewrite Z_mod_plus_full. apply Z.mod_small. lia.
  - rewrite Z.add_0_l. apply Z.mod_small. lia.
Qed.

Lemma frac_of p : is_u64 p -> p mod 2 ^ 52 = f_mag p mod 2 ^ 52.
Proof.
  intros H. rewrite (p_split p H) at 1. destruct (f_sign p).
  - replace (2 ^ 63 + f_mag p) with (f_mag p + 2 ^ 11 * 2 ^ 52) by lia.
    apply Z_mod_plus_full.
  - now rewrite Z.add_0_l.
Qed.

Lemma sf_nan p : is_u64 p -> (sf_of_bits p = S754_nan <-> f_isnan p = true).
Proof.
  intros H. unfold sf_of_bits, f_isnan. rewrite exp_of, frac_of by exact H.
  pose proof (f_mag_range p) as Hr.
  pose proof (Z.div_mod (f_mag p) (2 ^ 52) ltac:(lia)) as E.
  pose proof (Z.mod_pos_bound (f_mag p) (2 ^ 52) ltac:(lia)) as Hb.
  set (e := f_mag p / 2 ^ 52) in *. set (m := f_mag p mod 2 ^ 52) in *.
  set (g := f_mag p) in *. clearbody e m g.
  destruct (Z.eqb_spec e 2047).
  - destruct (Z.eqb_spec m 0); split; intros; first [discriminate | reflexivity | lia | exfalso; lia].
  - split.
    + destruct (Z.eqb_spec e 0).
      * destruct m; intros; discriminate.
      * destruct (m + 2 ^ 52) eqn:Em; intros; try discriminate; exfalso; lia.
    + intros. exfalso. lia.
Qed.

Lemma SFcompare_signed p q :
  is_u64 p -> is_u64 q -> f_isnan p = false -> f_isnan q = false ->
  SFcompare (sf_of_bits p) (sf_of_bits q) = Some (f_signed p ?= f_signed q).
Proof.
  intros Hp Hq Np Nq. unfold sf_of_bits, f_isnan, f_signed in *.
  rewrite (exp_of p), (exp_of q), (frac_of p), (frac_of q) by assumption.
  fold (f_sign p) (f_sign q).
  pose proof (f_mag_range p) as Rp. pose proof (f_mag_range q) as Rq.
  set (mp := f_mag p) in *. set (mq := f_mag q) in *.
  pose proof (Z.div_mod mp (2 ^ 52) ltac:(lia)) as Ep.
  pose proof (Z.mod_pos_bound mp (2 ^ 52) ltac:(lia)) as Bp.
  pose proof (Z.div_mod mq (2 ^ 52) ltac:(lia)) as Eq.
  pose proof (Z.mod_pos_bound mq (2 ^ 52) ltac:(lia)) as Bq.
  assert (0 <= mp / 2 ^ 52 <= 2047) as Cp.
  { split; [apply Z.div_pos; lia|]. apply Z.lt_succ_r, Z.div_lt_upper_bound; lia. }
  assert (0 <= mq / 2 ^ 52 <= 2047) as Cq.
  { split; [apply Z.div_pos; lia|]. apply Z.lt_succ_r, Z.div_lt_upper_bound; lia. }
  set (ep := mp / 2 ^ 52) in *. set (eq := mq / 2 ^ 52) in *.
  set (fp := mp mod 2 ^ 52) in *. set (fq := mq mod 2 ^ 52) in *.
  clearbody ep eq fp fq mp mq. clear Hp Hq.
  (* classify each operand *)
  assert (forall (s : bool) m e f, m = 2 ^ 52 * e + f -> 0 <= f < 2 ^ 52 -> 0 <= e <= 2047 ->
    2047 * 2 ^ 52 <? m = false ->
    let t := if e =? 2047 then if f =? 0 then S754_infinity s else S754_nan
             else if e =? 0 then match f with Z.pos m' => S754_finite s m' (-1074) | _ => S754_zero s end
             else match f + 2 ^ 52 with Z.pos m' => S754_finite s m' (e - 1075) | _ => S754_nan end in
    (m = 0 /\ t = S754_zero s) \/ (m = 2047 * 2 ^ 52 /\ t = S754_infinity s) \/
    (exists m' e', t = S754_finite s m' e' /\ 0 < m < 2047 * 2 ^ 52 /\
       ((e = 0 /\ e' = -1074 /\ Z.pos m' = f) \/ (e <> 0 /\ e' = e - 1075 /\ Z.pos m' = f + 2 ^ 52)))) as Hclass.
  { intros s m e f Hm Hf He Hn t. subst t.
    destruct (Z.eqb_spec e 2047).
    - right; left. destruct (Z.eqb_spec f 0); [split; [lia|reflexivity]|lia].
    - destruct (Z.eqb_spec e 0) as [E0|E0].
      + destruct f as [|f'|f'] eqn:Ef; [left; split; [lia|reflexivity]| |lia].
        right; right. exists f', (-1074). split; [reflexivity|]. split; [lia|]. left. lia.
      + right; right. destruct (f + 2 ^ 52) as [|f'|f'] eqn:Ef; try lia.
        exists f', (e - 1075). split; [reflexivity|]. split; [lia|]. right. lia. }
  pose proof (Hclass (f_sign p) mp ep fp Ep Bp Cp Np) as KP.
  pose proof (Hclass (f_sign q) mq eq fq Eq Bq Cq Nq) as KQ.
  clear Hclass. cbv zeta in KP, KQ.
  assert (forall a b : Z, a < b -> (a ?= b) = Lt) as Hlt by (intros; now apply Z.compare_lt_iff).
  assert (forall a b : Z, b < a -> (a ?= b) = Gt) as Hgt by (intros; now apply Z.compare_gt_iff).
  destruct KP as [[KP1 ->]|[[KP1 ->]|(m1 & e1 & -> & KP1 & KP2)]],
           KQ as [[KQ1 ->]|[[KQ1 ->]|(m2 & e2 & -> & KQ1 & KQ2)]];
    destruct (f_sign p), (f_sign q); cbn [SFcompare]; f_equal;
    try (symmetry; apply Hlt; lia); try (symmetry; apply Hgt; lia);
    try (symmetry; apply Z.compare_eq_iff; lia).
  - destruct (Z.compare_spec e1 e2) as [E|E|E].
    + change (Pos.compare_cont Datatypes.Eq m1 m2) with (m1 ?= m2)%positive.
      rewrite Z.compare_opp.
      rewrite <- Pos2Z.inj_compare || idtac.
      change (m1 ?= m2)%positive with (Z.pos m1 ?= Z.pos m2).
      destruct (Z.compare_spec (Z.pos m1) (Z.pos m2)); symmetry;
        [apply Z.compare_eq_iff|apply Hgt|apply Hlt]; lia.
    + symmetry; apply Hgt; lia.
    + symmetry; apply Hlt; lia.
  - destruct (Z.compare_spec e1 e2) as [E|E|E].
    + change (Pos.compare_cont Datatypes.Eq m1 m2) with (Z.pos m1 ?= Z.pos m2).
      destruct (Z.compare_spec (Z.pos m1) (Z.pos m2)); symmetry;
        [apply Z.compare_eq_iff|apply Hlt|apply Hgt]; lia.
    + symmetry; apply Hlt; lia.
    + symmetry; apply Hgt; lia.
Qed.

(** Go's comparison of floats, as modelled, is IEEE comparison as formalised in
    the standard library. *)
Lemma f_cmp_ieee p q : is_u64 p -> is_u64 q -> f_cmp p q = SFcompare (sf_of_bits p) (sf_of_bits q).
Proof.
  intros Hp Hq. unfold f_cmp.
  destruct (f_isnan p) eqn:Np.
  - apply sf_nan in Np; [|exact Hp]. rewrite Np. reflexivity.
  - destruct (f_isnan q) eqn:Nq; cbn [orb].
    + apply sf_nan in Nq; [|exact Hq]. rewrite Nq. destruct (sf_of_bits p); reflexivity.
    + rewrite SFcompare_signed by assumption. now rewrite f_val_compare.
Qed.

Lemma float_order_signed p q :
  is_u64 p -> is_u64 q ->
  float_order p q =
  match f_isnan p, f_isnan q with
  | true, true => Eq | true, false => Lt | false, true => Gt
  | false, false => f_signed p ?= f_signed q
  end.
Proof.
  intros Hp Hq. unfold float_order.
  pose proof (sf_nan p Hp) as Sp. pose proof (sf_nan q Hq) as Sq.
  destruct (f_isnan p) eqn:Np, (f_isnan q) eqn:Nq.
  - rewrite (proj2 Sp eq_refl), (proj2 Sq eq_refl). reflexivity.
  - rewrite (proj2 Sp eq_refl).
    destruct (sf_of_bits q); try reflexivity. now discriminate (proj1 Sq eq_refl).
  - rewrite (proj2 Sq eq_refl).
    destruct (sf_of_bits p); try reflexivity. now discriminate (proj1 Sp eq_refl).
  - pose proof (SFcompare_signed p q Hp Hq Np Nq) as E.
    destruct (sf_of_bits p); try (now discriminate (proj1 Sp eq_refl));
      destruct (sf_of_bits q); try (now discriminate (proj1 Sq eq_refl)); rewrite E; reflexivity.
Qed.

(** ** Negation *)

Lemma f_neg_range p : is_u64 p -> is_u64 (f_neg p).
Proof.
  unfold is_u64, f_neg, f_sign. intros H. destruct (Z.leb_spec (2 ^ 63) p); lia.
Qed.

Lemma f_neg_sign p : is_u64 p -> f_sign (f_neg p) = negb (f_sign p).
Proof.
  unfold is_u64, f_neg, f_sign. intros H. destruct (Z.leb_spec (2 ^ 63) p); cbn [negb];
  [apply Z.leb_gt|apply Z.leb_le]; lia.
Qed.

Lemma f_neg_mag p : f_mag (f_neg p) = f_mag p.
Proof.
  unfold f_mag, f_neg. destruct (f_sign p).
  - replace (p - 2 ^ 63) with (p + (-1) * 2 ^ 63) by lia. apply Z_mod_plus_full.
  - replace (p + 2 ^ 63) with (p + 1 * 2 ^ 63) by lia. apply Z_mod_plus_full.
Qed.

Lemma f_neg_nan p : f_isnan (f_neg p) = f_isnan p.
Proof. unfold f_isnan. now rewrite f_neg_mag. Qed.

Lemma f_neg_signed p : is_u64 p -> f_signed (f_neg p) = - f_signed p.
Proof.
  intros H. unfold f_signed. rewrite f_neg_sign, f_neg_mag by exact H.
  destruct (f_sign p); cbn [negb]; lia.
Qed.

Lemma f_iszero_spec p : f_iszero p = true <-> f_mag p = 0.
Proof.
  unfold f_iszero, f_cmp. pose proof (f_mag_range p).
  assert (f_isnan 0 = false) as -> by reflexivity. rewrite orb_false_r.
  destruct (f_isnan p) eqn:N.
  - unfold f_isnan in N. split; [easy|lia].
  - rewrite f_val_compare. change (f_signed 0) with 0. unfold f_signed.
    destruct (f_sign p); destruct (Z.compare_spec (- f_mag p) 0) || idtac;
    destruct (Z.compare_spec (f_mag p) 0) || idtac; split; try easy; try lia.
Qed.
