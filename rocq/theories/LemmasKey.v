(** Proofs about encode/key.go. *)

From Verif Require Import ModelKey SpecEncode SpecValue LemmasBase LemmasEncode LemmasFloat.
From Coq Require Import ZifyBool ZifyNat.

(** ** Column keys *)

Lemma i32_small z : is_i32 z -> i32 z = z.
Proof.
  unfold is_i32, i32. intros H. destruct (Z.ltb_spec z 0) as [Hz|Hz].
  - assert (z mod 2 ^ 32 = z + 2 ^ 32) as ->.
    { symmetry; apply Zmod_unique with (q := -1); lia. }
    destruct (Z.ltb_spec (z + 2 ^ 32) (2 ^ 31)); lia.
  - rewrite Z.mod_small by lia. destruct (Z.ltb_spec z (2 ^ 31)); lia.
Qed.

Lemma MakeColumnKey_small n d :
  0 <= n < 2 ^ 31 - 1 -> MakeColumnKey n d = if d then - (n + 1) else n + 1.
Proof.
  intros H. unfold MakeColumnKey, u32. rewrite Z.mod_small by lia.
  rewrite (i32_small (n + 1)) by (unfold is_i32; lia).
  destruct d; [|reflexivity]. apply i32_small. unfold is_i32; lia.
Qed.

Lemma column_key_round_trip_lemma n d :
  0 <= n < 2 ^ 31 - 1 ->
  ckColumn (MakeColumnKey n d) = n /\ ckReverse (MakeColumnKey n d) = d /\
  is_i32 (MakeColumnKey n d).
Proof.
  intros H. rewrite MakeColumnKey_small by exact H.
  unfold ckColumn, ckReverse, is_i32.
  destruct d.
  - destruct (Z.ltb_spec (- (n + 1)) 0); [|lia].
    rewrite (i32_small (- - (n + 1))) by (unfold is_i32; lia).
    replace (- - (n + 1) - 1) with n by lia.
    rewrite i32_small by (unfold is_i32; lia).
    unfold u32. rewrite Z.mod_small by lia. repeat split; lia.
  - destruct (Z.ltb_spec (n + 1) 0); [lia|].
    replace (n + 1 - 1) with n by lia.
    rewrite i32_small by (unfold is_i32; lia).
    unfold u32. rewrite Z.mod_small by lia. repeat split; lia.
Qed.

Lemma column_key_inj_lemma n d n' d' :
  0 <= n < 2 ^ 31 - 1 -> 0 <= n' < 2 ^ 31 - 1 ->
  MakeColumnKey n d = MakeColumnKey n' d' -> n = n' /\ d = d'.
Proof.
  intros H H' E.
  destruct (column_key_round_trip_lemma n d H) as (E1 & E2 & _).
  destruct (column_key_round_trip_lemma n' d' H') as (E3 & E4 & _).
  rewrite E in E1, E2. split; congruence.
Qed.

Lemma ColumnKeyUpdated_spec cols upd :
  (forall c d, In (c, d) cols -> Z.of_nat c < 2 ^ 31 - 1) ->
  ColumnKeyUpdated (keys_of cols) upd = true <->
  exists c d, In (c, d) cols /\ In (Z.of_nat c) upd.
Proof.
  intros Hc. unfold ColumnKeyUpdated, keys_of. rewrite existsb_exists. split.
  - intros (ck & Hin & H). apply in_map_iff in Hin. destruct Hin as ([c d] & <- & Hin).
    apply existsb_exists in H. destruct H as (x & Hx & H).
    cbn [fst snd] in H. pose proof (Hc c d Hin).
    destruct (column_key_round_trip_lemma (Z.of_nat c) d) as (E & _); [lia|].
    rewrite E in H. apply Z.eqb_eq in H. subst x. now exists c, d.
  - intros (c & d & Hin & H). exists (MakeColumnKey (Z.of_nat c) d). split.
    + apply in_map_iff. now exists (c, d).
    + apply existsb_exists. exists (Z.of_nat c). split; [exact H|].
      pose proof (Hc c d Hin).
      destruct (column_key_round_trip_lemma (Z.of_nat c) d) as (-> & _); [lia|].
      apply Z.eqb_refl.
Qed.

(** ** Encoding of byte strings *)

Lemma escape_compare s t a b :
  bytes_compare (escapeKeyBytes s ++ a) (escapeKeyBytes t ++ b) =
  match bytes_compare s t with Eq => bytes_compare a b | c => c end.
Proof.
  revert t; induction s as [|x s IH]; intros [|y t].
  - reflexivity.
  - cbn [escapeKeyBytes bytes_compare].
    pose proof (bz_range y).
    destruct ((bz y =? 0) || (bz y =? 1)) eqn:E; cbn [app bytes_compare].
    + reflexivity.
    + change (bz x00) with 0. destruct (Z.compare_spec 0 (bz y)); try reflexivity; lia.
  - cbn [escapeKeyBytes bytes_compare].
    pose proof (bz_range x).
    destruct ((bz x =? 0) || (bz x =? 1)) eqn:E; cbn [app bytes_compare].
    + reflexivity.
    + change (bz x00) with 0. destruct (Z.compare_spec (bz x) 0); try reflexivity; lia.
  - cbn [escapeKeyBytes bytes_compare].
    pose proof (bz_range x). pose proof (bz_range y).
    destruct ((bz x =? 0) || (bz x =? 1)) eqn:Ex, ((bz y =? 0) || (bz y =? 1)) eqn:Ey;
      cbn [app bytes_compare]; rewrite ?Z.compare_refl.
    + destruct (bz x ?= bz y); auto.
    + change (bz x01) with 1.
      rewrite (proj2 (Z.compare_lt_iff 1 (bz y))), (proj2 (Z.compare_lt_iff (bz x) (bz y))) by lia.
      reflexivity.
    + change (bz x01) with 1.
      rewrite (proj2 (Z.compare_gt_iff (bz x) 1)), (proj2 (Z.compare_gt_iff (bz x) (bz y))) by lia.
      reflexivity.
    + destruct (bz x ?= bz y); auto.
Qed.

Lemma bz_not b : bz (byte_not b) = 255 - bz b.
Proof. unfold byte_not. rewrite bz_zb. pose proof (bz_range b). apply Z.mod_small. lia. Qed.

Lemma compare_not x y : (bz (byte_not x) ?= bz (byte_not y)) = CompOpp (bz x ?= bz y).
Proof.
  rewrite !bz_not.
  destruct (Z.compare_spec (bz x) (bz y)); cbn [CompOpp];
    [apply Z.compare_eq_iff|apply Z.compare_gt_iff|apply Z.compare_lt_iff]; lia.
Qed.

Lemma escape_compare_rev s t a b :
  bytes_compare (map byte_not (escapeKeyBytes s) ++ a) (map byte_not (escapeKeyBytes t) ++ b) =
  match bytes_compare s t with Eq => bytes_compare a b | c => CompOpp c end.
Proof.
  revert t; induction s as [|x s IH]; intros [|y t].
  - reflexivity.
  - cbn [escapeKeyBytes bytes_compare].
    pose proof (bz_range y).
    destruct ((bz y =? 0) || (bz y =? 1)) eqn:E; cbn [map app bytes_compare]; rewrite compare_not.
    + reflexivity.
    + change (bz x00) with 0. destruct (Z.compare_spec 0 (bz y)); try reflexivity; lia.
  - cbn [escapeKeyBytes bytes_compare].
    pose proof (bz_range x).
    destruct ((bz x =? 0) || (bz x =? 1)) eqn:E; cbn [map app bytes_compare]; rewrite compare_not.
    + reflexivity.
    + change (bz x00) with 0. destruct (Z.compare_spec (bz x) 0); try reflexivity; lia.
  - cbn [escapeKeyBytes bytes_compare].
    pose proof (bz_range x). pose proof (bz_range y).
    destruct ((bz x =? 0) || (bz x =? 1)) eqn:Ex, ((bz y =? 0) || (bz y =? 1)) eqn:Ey;
      cbn [map app bytes_compare]; rewrite ?compare_not, ?Z.compare_refl; cbn [CompOpp];
      rewrite ?compare_not.
    + destruct (bz x ?= bz y); cbn [CompOpp]; auto.
    + change (bz x01) with 1.
      rewrite (proj2 (Z.compare_lt_iff 1 (bz y))), (proj2 (Z.compare_lt_iff (bz x) (bz y))) by lia.
      reflexivity.
    + change (bz x01) with 1.
      rewrite (proj2 (Z.compare_gt_iff (bz x) 1)), (proj2 (Z.compare_gt_iff (bz x) (bz y))) by lia.
      reflexivity.
    + destruct (bz x ?= bz y); cbn [CompOpp]; auto.
Qed.

(** ** Encoding of one value *)

Lemma EncodeUint64_app buf u : EncodeUint64 buf u = buf ++ EncodeUint64 [] u.
Proof. reflexivity. Qed.

Lemma encodeKeyValue_buf buf v d : encodeKeyValue buf v d = buf ++ encodeKeyValue [] v d.
Proof.
  unfold encodeKeyValue, encodeKeyBytes.
  destruct v as [|b|s|s|p|i]; rewrite <- ?app_assoc; try reflexivity.
  - destruct (f_isnan _); [reflexivity|]. destruct (f_iszero _); [reflexivity|].
    destruct (negb _); rewrite EncodeUint64_app, <- app_assoc; reflexivity.
  - destruct (_ <? 0); rewrite EncodeUint64_app, <- app_assoc; reflexivity.
Qed.

Lemma uint64_compare_app u v a b :
  is_u64 u -> is_u64 v ->
  bytes_compare (EncodeUint64 [] u ++ a) (EncodeUint64 [] v ++ b) =
  match u ?= v with Eq => bytes_compare a b | c => c end.
Proof.
  intros Hu Hv. rewrite bytes_compare_app_len by reflexivity.
  rewrite uint64_order_lemma by assumption. reflexivity.
Qed.

(** A float without its sign handling: the tag of the class followed by the
    payload. *)
Definition float_tag (p : Z) : Z :=
  if f_signed p <? 0 then 141 else if f_signed p =? 0 then 142 else 143.

Lemma sign_test p : is_u64 p -> negb (Z.land p (2 ^ 63) =? 0) = f_sign p.
Proof.
  intros H. unfold f_sign.
  assert (Z.testbit p 63 = (2 ^ 63 <=? p)) as E.
  { rewrite Z.testbit_eqb by lia. unfold is_u64 in H.
    destruct (Z.leb_spec (2 ^ 63) p).
    - assert (p / 2 ^ 63 = 1) as -> by (symmetry; apply Zdiv_unique with (r := p - 2 ^ 63); lia).
      reflexivity.
    - rewrite Z.div_small by lia. reflexivity. }
  rewrite <- E. destruct (Z.eqb_spec (Z.land p (2 ^ 63)) 0) as [E0|E0]; cbn [negb].
  - apply (f_equal (fun z => Z.testbit z 63)) in E0.
    rewrite Z.land_spec, Z.bits_0, (Z.pow2_bits_true 63), andb_true_r in E0 by lia. now symmetry.
  - destruct (Z.testbit p 63) eqn:E1; [reflexivity|]. exfalso. apply E0.
    apply Z.bits_inj'. intros i Hi. rewrite Z.land_spec, Z.bits_0.
    destruct (Z.eq_dec i 63) as [->|].
    + now rewrite E1.
    + rewrite (Z.pow2_bits_false 63 i) by lia. apply andb_false_r.
Qed.

Lemma u64_lnot p : is_u64 p -> u64 (Z.lnot p) = 2 ^ 64 - 1 - p.
Proof.
  unfold is_u64, u64, Z.lnot. intros H. symmetry. apply Zmod_unique with (q := -1); lia.
Qed.

Definition float_payload (p : Z) : bytes :=
  if f_iszero p then [Float64ZeroKeyTag]
  else if f_sign p then EncodeUint64 [Float64NegKeyTag] (u64 (Z.lnot p))
  else EncodeUint64 [Float64PosKeyTag] p.

Lemma float_payload_compare p q a b :
  is_u64 p -> is_u64 q ->
  bytes_compare (float_payload p ++ a) (float_payload q ++ b) =
  match f_signed p ?= f_signed q with Eq => bytes_compare a b | c => c end.
Proof.
  intros Hp Hq. unfold float_payload.
  pose proof (f_iszero_spec p) as Zp. pose proof (f_iszero_spec q) as Zq.
  pose proof (p_split p Hp) as Sp. pose proof (p_split q Hq) as Sq.
  pose proof (f_mag_range p) as Rp. pose proof (f_mag_range q) as Rq.
  rewrite (EncodeUint64_app [Float64NegKeyTag]), (EncodeUint64_app [Float64PosKeyTag]),
    (EncodeUint64_app [Float64NegKeyTag] (u64 (Z.lnot q))), (EncodeUint64_app [Float64PosKeyTag] q).
  unfold f_signed.
  assert (f_iszero p = false -> f_mag p <> 0) as Np.
  { intros E Hm. apply Zp in Hm. congruence. }
  assert (f_iszero q = false -> f_mag q <> 0) as Nq.
  { intros E Hm. apply Zq in Hm. congruence. }
  destruct (f_iszero p) eqn:Ep, (f_iszero q) eqn:Eq; try (specialize (Np eq_refl)); try (specialize (Nq eq_refl)).
  - rewrite (proj1 Zp), (proj1 Zq) by reflexivity. destruct (f_sign p), (f_sign q); reflexivity.
  - rewrite (proj1 Zp) by reflexivity.
    destruct (f_sign q).
    + cbn [app bytes_compare]. change (bz Float64ZeroKeyTag ?= bz Float64NegKeyTag) with Gt. cbn iota.
      destruct (f_sign p);
        [rewrite (proj2 (Z.compare_gt_iff (-0) (- f_mag q))) by lia|rewrite (proj2 (Z.compare_gt_iff 0 (- f_mag q))) by lia];
        reflexivity.
    + cbn [app bytes_compare]. change (bz Float64ZeroKeyTag ?= bz Float64PosKeyTag) with Lt. cbn iota.
      destruct (f_sign p);
        [rewrite (proj2 (Z.compare_lt_iff (-0) (f_mag q))) by lia|rewrite (proj2 (Z.compare_lt_iff 0 (f_mag q))) by lia];
        reflexivity.
  - rewrite (proj1 Zq) by reflexivity.
    destruct (f_sign p).
    + cbn [app bytes_compare]. change (bz Float64NegKeyTag ?= bz Float64ZeroKeyTag) with Lt. cbn iota.
      destruct (f_sign q);
        [rewrite (proj2 (Z.compare_lt_iff (- f_mag p) (-0))) by lia|rewrite (proj2 (Z.compare_lt_iff (- f_mag p) 0)) by lia];
        reflexivity.
    + cbn [app bytes_compare]. change (bz Float64PosKeyTag ?= bz Float64ZeroKeyTag) with Gt. cbn iota.
      destruct (f_sign q);
        [rewrite (proj2 (Z.compare_gt_iff (f_mag p) (-0))) by lia|rewrite (proj2 (Z.compare_gt_iff (f_mag p) 0)) by lia];
        reflexivity.
  - unfold is_u64 in Hp, Hq. destruct (f_sign p), (f_sign q); rewrite <- !app_assoc; cbn [app bytes_compare].
    + rewrite Z.compare_refl, uint64_compare_app by apply u64_range.
      rewrite !u64_lnot by (unfold is_u64; lia).
      replace (2 ^ 64 - 1 - p ?= 2 ^ 64 - 1 - q) with (- f_mag p ?= - f_mag q); [reflexivity|].
      destruct (Z.compare_spec (- f_mag p) (- f_mag q)); symmetry;
        [apply Z.compare_eq_iff|apply Z.compare_lt_iff|apply Z.compare_gt_iff]; lia.
    + change (bz Float64NegKeyTag ?= bz Float64PosKeyTag) with Lt. cbn iota.
      rewrite (proj2 (Z.compare_lt_iff (- f_mag p) (f_mag q))) by lia. reflexivity.
    + change (bz Float64PosKeyTag ?= bz Float64NegKeyTag) with Gt. cbn iota.
      rewrite (proj2 (Z.compare_gt_iff (f_mag p) (- f_mag q))) by lia. reflexivity.
    + rewrite Z.compare_refl, uint64_compare_app by (unfold is_u64; lia).
      replace (p ?= q) with (f_mag p ?= f_mag q); [reflexivity|].
      destruct (Z.compare_spec (f_mag p) (f_mag q)); symmetry;
        [apply Z.compare_eq_iff|apply Z.compare_lt_iff|apply Z.compare_gt_iff]; lia.
Qed.

Lemma encode_float_eq p d :
  is_u64 p ->
  encodeKeyValue [] (VFloat p) d =
  if f_isnan p then [if d then Float64NaNReverseKeyTag else Float64NaNKeyTag]
  else float_payload (if d then f_neg p else p).
Proof.
  intros H. unfold encodeKeyValue, float_payload. cbn [app].
  assert (f_isnan (if d then f_neg p else p) = f_isnan p) as ->.
  { destruct d; [apply f_neg_nan|reflexivity]. }
  assert (is_u64 (if d then f_neg p else p)) as H'.
  { destruct d; [now apply f_neg_range|exact H]. }
  rewrite sign_test by exact H'. reflexivity.
Qed.

Lemma float_payload_tag p : exists t r, float_payload p = t :: r /\ 140 < bz t < 144.
Proof.
  unfold float_payload. destruct (f_iszero p); [|destruct (f_sign p)]; eexists _, _;
    (split; [reflexivity|]); cbv; split; reflexivity.
Qed.

Definition int_payload (i : Z) : bytes :=
  if i <? 0 then EncodeUint64 [Int64NegKeyTag] (u64 i) else EncodeUint64 [Int64NotNegKeyTag] (u64 i).

Lemma int_payload_compare i j a b :
  is_i64 i -> is_i64 j ->
  bytes_compare (int_payload i ++ a) (int_payload j ++ b) =
  match i ?= j with Eq => bytes_compare a b | c => c end.
Proof.
  intros Hi Hj. unfold int_payload.
  rewrite (EncodeUint64_app [Int64NegKeyTag]), (EncodeUint64_app [Int64NotNegKeyTag]),
    (EncodeUint64_app [Int64NegKeyTag] (u64 j)), (EncodeUint64_app [Int64NotNegKeyTag] (u64 j)).
  destruct (Z.ltb_spec i 0), (Z.ltb_spec j 0); rewrite <- !app_assoc; cbn [app bytes_compare].
  - rewrite Z.compare_refl, uint64_compare_app by apply u64_range.
    rewrite !u64_neg by assumption. replace (i + 2 ^ 64 ?= j + 2 ^ 64) with (i ?= j); [reflexivity|].
    destruct (Z.compare_spec i j); symmetry;
      [apply Z.compare_eq_iff|apply Z.compare_lt_iff|apply Z.compare_gt_iff]; lia.
  - change (bz Int64NegKeyTag ?= bz Int64NotNegKeyTag) with Lt. cbn iota.
    rewrite (proj2 (Z.compare_lt_iff i j)) by lia. reflexivity.
  - change (bz Int64NotNegKeyTag ?= bz Int64NegKeyTag) with Gt. cbn iota.
    rewrite (proj2 (Z.compare_gt_iff i j)) by lia. reflexivity.
  - unfold is_i64 in *. rewrite !u64_small by (unfold is_u64; lia).
    rewrite Z.compare_refl, uint64_compare_app by (unfold is_u64; lia). reflexivity.
Qed.

(** The tag range of each type. *)
Lemma encode_tag v d :
  wf_value v ->
  exists t r, encodeKeyValue [] v d = t :: r /\
  match v with
  | VNull => bz t = 128 /\ r = [] | VBool _ => bz t = 129 | VInt _ => 130 <= bz t <= 131
  | VFloat _ => 140 <= bz t <= 144 | VString _ => bz t = 150 | VBytes _ => bz t = 160
  end.
Proof.
  intros H. destruct v as [|b|s|s|p|i].
  - exists x80, []. now split.
  - eexists x81, _. split; reflexivity.
  - eexists x96, _. split; reflexivity.
  - eexists xa0, _. split; reflexivity.
  - rewrite encode_float_eq by exact H. destruct (f_isnan p).
    + eexists _, []. split; [reflexivity|]. destruct d; cbv; split; congruence.
    + destruct (float_payload_tag (if d then f_neg p else p)) as (t & r & -> & Ht).
      exists t, r. split; [reflexivity|lia].
  - cbn [encodeKeyValue app].
    destruct ((if d then Z.lnot i else i) <? 0); eexists _, _;
      (split; [reflexivity|]); cbv; split; congruence.
Qed.

(** The one lemma from which order, injectivity and prefix-freeness follow. *)
Lemma encode_value_compare v w d a b :
  wf_value v -> wf_value w ->
  bytes_compare (encodeKeyValue [] v d ++ a) (encodeKeyValue [] w d ++ b) =
  match column_order d v w with Eq => bytes_compare a b | c => c end.
Proof.
  intros Hv Hw.
  assert (type_rank v <> type_rank w ->
    bytes_compare (encodeKeyValue [] v d ++ a) (encodeKeyValue [] w d ++ b) =
    match (type_rank v ?= type_rank w) with Eq => bytes_compare a b | c => c end) as Hdiff.
  { intros Hne.
    destruct (encode_tag v d Hv) as (t1 & r1 & -> & H1).
    destruct (encode_tag w d Hw) as (t2 & r2 & -> & H2).
    cbn [app bytes_compare].
    destruct v, w; cbn [type_rank] in Hne; try (exfalso; now apply Hne);
      first [ rewrite (proj2 (Z.compare_lt_iff (bz t1) (bz t2))) by lia; reflexivity
            | rewrite (proj2 (Z.compare_gt_iff (bz t1) (bz t2))) by lia; reflexivity ]. }
  unfold column_order.
  destruct v as [|x|s|s|p|i], w as [|y|t|t|q|j];
    try (rewrite Hdiff by (cbn; lia); cbn [type_rank value_order]; rewrite ?andb_false_r; reflexivity).
  - cbn [type_rank value_order]. destruct d; reflexivity.
  - cbn [type_rank]. rewrite Z.eqb_refl, andb_true_r. destruct d, x, y; reflexivity.
  - cbn [type_rank value_order]. rewrite Z.eqb_refl, andb_true_r.
    cbn [encodeKeyValue]. unfold encodeKeyBytes. rewrite <- !app_assoc. cbn [app bytes_compare].
    rewrite Z.compare_refl. destruct d.
    + rewrite escape_compare_rev. destruct (bytes_compare s t); reflexivity.
    + apply escape_compare.
  - cbn [type_rank value_order]. rewrite Z.eqb_refl, andb_true_r.
    cbn [encodeKeyValue]. unfold encodeKeyBytes. rewrite <- !app_assoc. cbn [app bytes_compare].
    rewrite Z.compare_refl. destruct d.
    + rewrite escape_compare_rev. destruct (bytes_compare s t); reflexivity.
    + apply escape_compare.
  - cbn [type_rank value_order wf_value] in *. rewrite Z.eqb_refl, andb_true_r.
    rewrite !encode_float_eq, float_order_signed by assumption.
    destruct (f_isnan p), (f_isnan q).
    + destruct d; reflexivity.
    + destruct (float_payload_tag (if d then f_neg q else q)) as (u & r & -> & Hu).
      cbn [app bytes_compare]. destruct d; cbn [CompOpp].
      * change (bz Float64NaNReverseKeyTag) with 144.
        rewrite (proj2 (Z.compare_gt_iff 144 (bz u))) by lia. reflexivity.
      * change (bz Float64NaNKeyTag) with 140.
        rewrite (proj2 (Z.compare_lt_iff 140 (bz u))) by lia. reflexivity.
    + destruct (float_payload_tag (if d then f_neg p else p)) as (u & r & -> & Hu).
      cbn [app bytes_compare]. destruct d; cbn [CompOpp].
      * change (bz Float64NaNReverseKeyTag) with 144.
        rewrite (proj2 (Z.compare_lt_iff (bz u) 144)) by lia. reflexivity.
      * change (bz Float64NaNKeyTag) with 140.
        rewrite (proj2 (Z.compare_gt_iff (bz u) 140)) by lia. reflexivity.
    + destruct d.
      * rewrite float_payload_compare by now apply f_neg_range.
        rewrite !f_neg_signed by assumption.
        rewrite Z.compare_opp, Z.compare_antisym.
        destruct (f_signed p ?= f_signed q); reflexivity.
      * now apply float_payload_compare.
  - cbn [type_rank value_order wf_value] in *. rewrite Z.eqb_refl, andb_true_r.
    cbn [encodeKeyValue app].
    change (bytes_compare (int_payload (if d then Z.lnot i else i) ++ a)
                          (int_payload (if d then Z.lnot j else j) ++ b) =
            match (if d then CompOpp (i ?= j) else i ?= j) with
            | Eq => bytes_compare a b | c => c end).
    unfold is_i64 in *. destruct d.
    + rewrite int_payload_compare by (unfold is_i64, Z.lnot; lia).
      replace (Z.lnot i ?= Z.lnot j) with (CompOpp (i ?= j)); [reflexivity|].
      unfold Z.lnot. destruct (Z.compare_spec i j); cbn [CompOpp]; symmetry;
        [apply Z.compare_eq_iff|apply Z.compare_gt_iff|apply Z.compare_lt_iff]; lia.
    + now apply int_payload_compare.
Qed.

(** ** Whole keys *)

Lemma makeKeyLoop_buf buf key r :
  makeKeyLoop buf key r =
  match makeKeyLoop [] key r with Some k => Some (buf ++ k) | None => None end.
Proof.
  revert buf; induction key as [|ck key IH]; intros buf; cbn [makeKeyLoop].
  - now rewrite app_nil_r.
  - destruct (znth r (ckColumn ck)) as [v|]; [|reflexivity].
    rewrite IH, (IH (encodeKeyValue [] v (ckReverse ck))).
    rewrite encodeKeyValue_buf.
    destruct (makeKeyLoop [] key r); [|reflexivity]. now rewrite app_assoc.
Qed.

Lemma MakeKey_nil r : MakeKey [] r = Some [].
Proof. reflexivity. Qed.

Lemma MakeKey_cons ck key r :
  MakeKey (ck :: key) r =
  match znth r (ckColumn ck), MakeKey key r with
  | Some v, Some k => Some (encodeKeyValue [] v (ckReverse ck) ++ k)
  | _, _ => None
  end.
Proof.
  unfold MakeKey. cbn [makeKeyLoop].
  destruct (znth r (ckColumn ck)) as [v|]; [|reflexivity].
  rewrite makeKeyLoop_buf. reflexivity.
Qed.

Lemma MakeKey_app k1 k2 r :
  MakeKey (k1 ++ k2) r =
  match MakeKey k1 r, MakeKey k2 r with
  | Some a, Some b => Some (a ++ b)
  | _, _ => None
  end.
Proof.
  induction k1 as [|ck k1 IH]; cbn [app].
  - rewrite MakeKey_nil. destruct (MakeKey k2 r); reflexivity.
  - rewrite !MakeKey_cons, IH.
    destruct (znth r (ckColumn ck)), (MakeKey k1 r), (MakeKey k2 r); try reflexivity.
    now rewrite app_assoc.
Qed.

Lemma znth_col c d (r : row) :
  Z.of_nat c < 2 ^ 31 - 1 ->
  znth r (ckColumn (MakeColumnKey (Z.of_nat c) d)) = nth_error r c.
Proof.
  intros H. destruct (column_key_round_trip_lemma (Z.of_nat c) d) as (-> & _); [lia|].
  unfold znth. destruct (Z.ltb_spec (Z.of_nat c) 0); [lia|]. now rewrite Nat2Z.id.
Qed.

Lemma MakeKey_cols c d cols r :
  Z.of_nat c < 2 ^ 31 - 1 ->
  MakeKey (keys_of ((c, d) :: cols)) r =
  match nth_error r c, MakeKey (keys_of cols) r with
  | Some v, Some k => Some (encodeKeyValue [] v d ++ k)
  | _, _ => None
  end.
Proof.
  intros H. unfold keys_of at 1. cbn [map fst snd]. fold (keys_of cols).
  rewrite MakeKey_cons, znth_col by exact H.
  destruct (column_key_round_trip_lemma (Z.of_nat c) d) as (_ & -> & _); [lia|]. reflexivity.
Qed.

Lemma key_fits_cons c d cols r :
  key_fits ((c, d) :: cols) r <->
  ((c < length r)%nat /\ Z.of_nat c < 2 ^ 31 - 1) /\ key_fits cols r.
Proof.
  unfold key_fits. split.
  - intros H. split; [apply (H c d); now left|]. intros c' d' Hin. apply (H c' d'). now right.
  - intros [H1 H2] c' d' [[= <- <-]|Hin]; [exact H1|]. now apply (H2 c' d').
Qed.

Lemma MakeKey_fits cols r : key_fits cols r -> exists k, MakeKey (keys_of cols) r = Some k.
Proof.
  induction cols as [|[c d] cols IH]; intros H.
  - exists []. reflexivity.
  - apply key_fits_cons in H. destruct H as [[H1 H2] H3].
    destruct (IH H3) as [k Hk].
    rewrite MakeKey_cols, Hk by exact H2.
    destruct (nth_error r c) eqn:E; [eexists; reflexivity|].
    apply nth_error_None in E. lia.
Qed.

Lemma wf_nth r c : Forall wf_value r -> wf_value (nth c r VNull).
Proof.
  intros H. destruct (Nat.ltb_spec c (length r)).
  - now apply Forall_nth.
  - rewrite nth_overflow by lia. exact I.
Qed.

Lemma key_compare_app cols r1 r2 k1 k2 a b :
  key_fits cols r1 -> key_fits cols r2 -> Forall wf_value r1 -> Forall wf_value r2 ->
  MakeKey (keys_of cols) r1 = Some k1 -> MakeKey (keys_of cols) r2 = Some k2 ->
  bytes_compare (k1 ++ a) (k2 ++ b) =
  match key_order cols r1 r2 with Eq => bytes_compare a b | c => c end.
Proof.
  intros F1 F2 W1 W2. revert k1 k2 F1 F2.
  induction cols as [|[c d] cols IH]; intros k1 k2 F1 F2 E1 E2.
  - injection E1 as <-. injection E2 as <-. reflexivity.
  - apply key_fits_cons in F1. apply key_fits_cons in F2.
    destruct F1 as [[L1 B] F1], F2 as [[L2 _] F2].
    rewrite MakeKey_cols in E1, E2 by exact B.
    destruct (nth_error r1 c) as [v1|] eqn:N1; [|easy].
    destruct (nth_error r2 c) as [v2|] eqn:N2; [|easy].
    destruct (MakeKey (keys_of cols) r1) as [m1|]; [|easy].
    destruct (MakeKey (keys_of cols) r2) as [m2|]; [|easy].
    injection E1 as <-. injection E2 as <-.
    rewrite <- !app_assoc. cbn [key_order].
    assert (nth c r1 VNull = v1) as -> by now apply nth_error_nth.
    assert (nth c r2 VNull = v2) as -> by now apply nth_error_nth.
    rewrite encode_value_compare.
    + destruct (column_order d v1 v2); try reflexivity.
      now apply IH.
    + rewrite <- (nth_error_nth r1 c VNull N1). now apply wf_nth.
    + rewrite <- (nth_error_nth r2 c VNull N2). now apply wf_nth.
Qed.

Lemma key_order_lemma cols r1 r2 :
  key_fits cols r1 -> key_fits cols r2 -> Forall wf_value r1 -> Forall wf_value r2 ->
  exists k1 k2, MakeKey (keys_of cols) r1 = Some k1 /\ MakeKey (keys_of cols) r2 = Some k2 /\
    bytes_compare k1 k2 = key_order cols r1 r2.
Proof.
  intros F1 F2 W1 W2.
  destruct (MakeKey_fits cols r1 F1) as [k1 E1]. destruct (MakeKey_fits cols r2 F2) as [k2 E2].
  exists k1, k2. repeat split; try assumption.
  pose proof (key_compare_app cols r1 r2 k1 k2 [] [] F1 F2 W1 W2 E1 E2) as H.
  rewrite !app_nil_r in H. rewrite H. destruct (key_order cols r1 r2); reflexivity.
Qed.

(** The index columns of a row that does not have them. *)
Lemma MakeKey_missing cols r :
  (forall c d, In (c, d) cols -> Z.of_nat c < 2 ^ 31 - 1) ->
  (exists c d, In (c, d) cols /\ (length r <= c)%nat) ->
  MakeKey (keys_of cols) r = None.
Proof.
  intros Hb (c & d & Hin & Hl). induction cols as [|[c' d'] cols IH]; [easy|].
  rewrite MakeKey_cols by (apply (Hb c' d'); now left).
  destruct Hin as [[= -> ->]|Hin].
  - rewrite (proj2 (nth_error_None r c)) by lia. reflexivity.
  - rewrite IH; [destruct (nth_error r c'); reflexivity| |exact Hin].
    intros c'' d'' H. apply (Hb c'' d''). now right.
Qed.

(** ** Equality of keys *)

Lemma f_mag_inj p q :
  is_u64 p -> is_u64 q -> f_signed p = f_signed q -> f_mag p <> 0 -> p = q.
Proof.
  intros Hp Hq H Hn. rewrite (p_split p Hp), (p_split q Hq).
  pose proof (f_mag_range p). pose proof (f_mag_range q).
  unfold f_signed in H. destruct (f_sign p), (f_sign q); lia.
Qed.

Lemma sf_zero p : is_u64 p -> (f_mag p = 0 <-> exists s, sf_of_bits p = S754_zero s).
Proof.
  intros H. unfold sf_of_bits. rewrite exp_of, frac_of by exact H.
  pose proof (f_mag_range p) as Hr.
  pose proof (Z.div_mod (f_mag p) (2 ^ 52) ltac:(lia)) as E.
  pose proof (Z.mod_pos_bound (f_mag p) (2 ^ 52) ltac:(lia)) as Hb.
  split.
  - intros ->. eexists. reflexivity.
  - intros [s Hs].
    set (e := f_mag p / 2 ^ 52) in *. set (m := f_mag p mod 2 ^ 52) in *.
    set (g := f_mag p) in *. clearbody e m g.
    destruct (Z.eqb_spec e 2047).
    + destruct (m =? 0); discriminate.
    + destruct (Z.eqb_spec e 0).
      * destruct m; try discriminate; lia.
      * destruct (m + 2 ^ 52); discriminate.
Qed.

Lemma column_order_eq d v w :
  wf_value v -> wf_value w -> (column_order d v w = Eq <-> same_key_value v w).
Proof.
  intros Hv Hw.
  assert (column_order d v w = Eq <-> value_order v w = Eq) as ->.
  { unfold column_order. destruct (d && (type_rank v =? type_rank w)); [|easy].
    destruct (value_order v w); cbn; easy. }
  unfold same_key_value.
  destruct v as [|x|s|s|p|i], w as [|y|t|t|q|j]; cbn [value_order type_rank wf_value] in *;
    try (split; [intros H; try discriminate H; now left
                |intros [H|(p' & q' & H1 & H2 & _)]; try discriminate; reflexivity]).
  - split.
    + destruct x, y; cbn; intros; try easy; now left.
    + intros [[= ->]|(? & ? & ? & _)]; [now destruct y|easy].
  - rewrite bytes_compare_eq. split; [intros ->; now left|].
    intros [[= ->]|(? & ? & ? & _)]; easy.
  - rewrite bytes_compare_eq. split; [intros ->; now left|].
    intros [[= ->]|(? & ? & ? & _)]; easy.
  - rewrite float_order_signed by assumption.
    pose proof (sf_nan p Hv) as Np. pose proof (sf_nan q Hw) as Nq.
    pose proof (sf_zero p Hv) as Zp. pose proof (sf_zero q Hw) as Zq.
    split.
    + intros H. destruct (f_isnan p) eqn:Ep, (f_isnan q) eqn:Eq; try easy.
      * right. exists p, q. split; [reflexivity|]. split; [reflexivity|]. left. split; [now apply Np|now apply Nq].
      * apply Z.compare_eq in H.
        destruct (Z.eq_dec (f_mag p) 0) as [E|E].
        -- right. exists p, q. split; [reflexivity|]. split; [reflexivity|]. right.
           destruct (proj1 Zp E) as [s Hs].
           assert (f_mag q = 0) as E'.
           { unfold f_signed in H. destruct (f_sign p), (f_sign q); lia. }
           destruct (proj1 Zq E') as [t Ht]. now exists s, t.
        -- left. f_equal. now apply f_mag_inj.
    + intros [[= ->]|(p' & q' & [= <-] & [= <-] & [[H1 H2]|(s & t & H1 & H2)])].
      * destruct (f_isnan q); [reflexivity|apply Z.compare_refl].
      * rewrite (proj1 Np H1), (proj1 Nq H2). reflexivity.
      * assert (f_mag p = 0) as E1 by (apply Zp; now exists s).
        assert (f_mag q = 0) as E2 by (apply Zq; now exists t).
        unfold f_isnan, f_signed. rewrite E1, E2. cbn [Z.ltb].
        destruct (f_sign p), (f_sign q); reflexivity.
  - rewrite Z.compare_eq_iff. split; [intros ->; now left|].
    intros [[= ->]|(? & ? & ? & _)]; easy.
Qed.

Lemma key_order_eq cols r1 r2 :
  Forall wf_value r1 -> Forall wf_value r2 ->
  key_order cols r1 r2 = Eq <->
  forall c d, In (c, d) cols -> same_key_value (nth c r1 VNull) (nth c r2 VNull).
Proof.
  intros W1 W2. induction cols as [|[c d] cols IH]; cbn [key_order].
  - split; [intros _ c d []|reflexivity].
  - pose proof (column_order_eq d (nth c r1 VNull) (nth c r2 VNull)
      (wf_nth r1 c W1) (wf_nth r2 c W2)) as H.
    destruct (column_order d (nth c r1 VNull) (nth c r2 VNull)).
    + rewrite IH. split.
      * intros Hs c' d' [[= <- <-]|Hin]; [now apply H|now apply (Hs c' d')].
      * intros Hs c' d' Hin. apply (Hs c' d'). now right.
    + split; [easy|]. intros Hs. now apply H, (Hs c d); left.
    + split; [easy|]. intros Hs. now apply H, (Hs c d); left.
Qed.

Lemma key_equal_lemma cols r1 r2 k1 k2 :
  key_fits cols r1 -> key_fits cols r2 -> Forall wf_value r1 -> Forall wf_value r2 ->
  MakeKey (keys_of cols) r1 = Some k1 -> MakeKey (keys_of cols) r2 = Some k2 ->
  (k1 = k2 <-> forall c d, In (c, d) cols -> same_key_value (nth c r1 VNull) (nth c r2 VNull)).
Proof.
  intros F1 F2 W1 W2 E1 E2. rewrite <- key_order_eq by assumption.
  rewrite <- bytes_compare_eq.
  destruct (key_order_lemma cols r1 r2 F1 F2 W1 W2) as (k1' & k2' & E1' & E2' & <-).
  rewrite E1 in E1'. rewrite E2 in E2'. injection E1' as <-. injection E2' as <-. reflexivity.
Qed.

Lemma bytes_compare_prefix a s : bytes_compare a (a ++ s) = Eq \/ s <> [].
Proof.
  destruct s; [left; rewrite app_nil_r; apply bytes_compare_refl|right; easy].
Qed.

Lemma prefix_free_lemma cols r1 r2 k1 k2 s1 s2 :
  key_fits cols r1 -> key_fits cols r2 -> Forall wf_value r1 -> Forall wf_value r2 ->
  MakeKey (keys_of cols) r1 = Some k1 -> MakeKey (keys_of cols) r2 = Some k2 ->
  k1 ++ s1 = k2 ++ s2 -> k1 = k2 /\ s1 = s2.
Proof.
  intros F1 F2 W1 W2 E1 E2 H.
  pose proof (key_compare_app cols r1 r2 k1 k2 s1 s2 F1 F2 W1 W2 E1 E2) as C.
  rewrite H, bytes_compare_refl in C.
  destruct (key_order cols r1 r2) eqn:K; [|easy|easy].
  symmetry in C. apply bytes_compare_eq in C.
  assert (k1 = k2) as ->.
  { apply (key_equal_lemma cols r1 r2 k1 k2); try assumption. now apply key_order_eq. }
  split; [reflexivity|exact C].
Qed.

Lemma key_app_lemma c1 c2 r :
  MakeKey (keys_of (c1 ++ c2)) r =
  match MakeKey (keys_of c1) r, MakeKey (keys_of c2) r with
  | Some a, Some b => Some (a ++ b)
  | _, _ => None
  end.
Proof. unfold keys_of. rewrite map_app. apply MakeKey_app. Qed.
