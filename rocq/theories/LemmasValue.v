(** Proofs about types/value.go. *)

From Verif Require Import ModelKey SpecValue LemmasBase LemmasFloat LemmasKey.
From Coq Require Import ZifyBool ZifyNat.

(** ** Compare *)

Lemma Compare_total_lemma v w : exists c, Compare v w = Some c.
Proof.
  unfold Compare. destruct v as [|[]|s|s|p|i], w as [|[]|t|t|q|j]; cbn; eexists; reflexivity.
Qed.

Lemma f_cmp_antisym p q : f_cmp q p = match f_cmp p q with Some c => Some (CompOpp c) | None => None end.
Proof.
  unfold f_cmp. rewrite orb_comm. destruct (f_isnan p || f_isnan q); [reflexivity|].
  now rewrite Z.compare_antisym.
Qed.

Lemma compare_floats_antisym p q : compare_floats q p = CompOpp (compare_floats p q).
Proof.
  unfold compare_floats. rewrite f_cmp_antisym. destruct (f_cmp p q) as [[]|]; reflexivity.
Qed.

Lemma int_cmp i j : (if i <? j then Lt else if j <? i then Gt else Eq) = (i ?= j).
Proof.
  destruct (Z.compare_spec i j), (Z.ltb_spec i j), (Z.ltb_spec j i); try reflexivity; lia.
Qed.

Lemma Compare_antisym_lemma v w c : Compare v w = Some c -> Compare w v = Some (CompOpp c).
Proof.
  unfold Compare.
  destruct v as [|[]|s|s|p|i], w as [|[]|t|t|q|j]; cbn; try (intros [= <-]; reflexivity);
    intros [= <-]; f_equal.
  - apply bytes_compare_antisym.
  - apply bytes_compare_antisym.
  - apply compare_floats_antisym.
  - apply compare_floats_antisym.
  - apply compare_floats_antisym.
  - rewrite !int_cmp. apply Z.compare_antisym.
Qed.

Lemma compare_floats_order p q :
  is_u64 p -> is_u64 q -> f_isnan p = false -> f_isnan q = false ->
  compare_floats p q = float_order p q.
Proof.
  intros Hp Hq Np Nq. unfold compare_floats, f_cmp. rewrite Np, Nq. cbn [orb].
  rewrite float_order_signed, Np, Nq by assumption. apply f_val_compare.
Qed.

Lemma not_nan p : is_u64 p -> ~ is_nan (VFloat p) -> f_isnan p = false.
Proof.
  intros H N. destruct (f_isnan p) eqn:E; [|reflexivity]. exfalso. apply N.
  exists p. split; [reflexivity|]. now apply sf_nan.
Qed.

(** Away from NaN and mixed numbers, Compare is the specified order. *)
Lemma Compare_order v w :
  wf_value v -> wf_value w -> ~ is_nan v -> ~ is_nan w -> ~ mixed_numbers v w ->
  Compare v w = Some (value_order v w).
Proof.
  intros Hv Hw Nv Nw Nm. unfold Compare.
  destruct v as [|[]|s|s|p|i], w as [|[]|t|t|q|j]; cbn [order mixed_numbers wf_value] in *;
    try reflexivity; try tauto.
  - cbn. f_equal. apply not_nan in Nv, Nw; try assumption. now apply compare_floats_order.
  - cbn. now rewrite int_cmp.
Qed.

Lemma Compare_reflexive_lemma v : ~ is_nan v -> wf_value v -> Compare v v = Some Eq.
Proof.
  intros N W. unfold Compare. destruct v as [|[]|s|s|p|i]; cbn; try reflexivity.
  - now rewrite bytes_compare_refl.
  - now rewrite bytes_compare_refl.
  - unfold compare_floats, f_cmp. rewrite (not_nan p W N). cbn [orb]. now rewrite Z.compare_refl.
  - now rewrite int_cmp, Z.compare_refl.
Qed.

(** A lexicographic transitivity that covers both strict and weak cases: the
    composition of two comparison results. *)
Definition comp_trans (a b c : comparison) : Prop :=
  (a = Lt -> b = Lt -> c = Lt) /\ (a = Eq -> c = b) /\ (b = Eq -> c = a).

Lemma Z_comp_trans x y z : comp_trans (x ?= y) (y ?= z) (x ?= z).
Proof.
  unfold comp_trans. repeat split.
  - rewrite !Z.compare_lt_iff. lia.
  - intros H. apply Z.compare_eq in H. now subst.
  - intros H. apply Z.compare_eq in H. now subst.
Qed.

Lemma bytes_comp_trans x y z : comp_trans (bytes_compare x y) (bytes_compare y z) (bytes_compare x z).
Proof.
  unfold comp_trans. repeat split.
  - apply bytes_compare_trans.
  - intros H. apply bytes_compare_eq in H. now subst.
  - intros H. apply bytes_compare_eq in H. now subst.
Qed.

Lemma Compare_trans_lemma u v w a b c :
  wf_value u -> wf_value v -> wf_value w ->
  ~ is_nan u -> ~ is_nan v -> ~ is_nan w ->
  ~ mixed_numbers u v -> ~ mixed_numbers v w -> ~ mixed_numbers u w ->
  Compare u v = Some a -> Compare v w = Some b -> Compare u w = Some c ->
  comp_trans a b c.
Proof.
  intros Wu Wv Ww Nu Nv Nw M1 M2 M3.
  rewrite !Compare_order by assumption. intros [= <-] [= <-] [= <-].
  destruct u as [|x|s|s|p|i], v as [|y|t|t|q|j], w as [|z|r|r|o|k];
    cbn [mixed_numbers value_order type_rank wf_value] in *; try tauto;
    try apply Z_comp_trans; try apply bytes_comp_trans;
    cbn [Z.compare Pos.compare Pos.compare_cont];
    try (unfold comp_trans; repeat split; intros; congruence).
  - destruct x, y, z; unfold comp_trans; repeat split; intros; cbn in *; congruence.
  - rewrite !float_order_signed by assumption.
    apply not_nan in Nu, Nv, Nw; try assumption. rewrite Nu, Nv, Nw. apply Z_comp_trans.
Qed.

Lemma Compare_eq_lemma v w :
  wf_value v -> wf_value w -> ~ is_nan v -> ~ is_nan w -> ~ mixed_numbers v w ->
  (Compare v w = Some Eq <-> same_key_value v w).
Proof.
  intros. rewrite Compare_order by assumption.
  rewrite <- (column_order_eq false) by assumption. unfold column_order. cbn [andb].
  split; [now intros [= ->]|now intros ->].
Qed.

Lemma Compare_nan_lemma p v :
  is_u64 p -> is_nan (VFloat p) -> (exists i, v = VInt i) \/ (exists q, v = VFloat q) ->
  Compare (VFloat p) v = Some Eq.
Proof.
  intros Hp (p' & [= <-] & E) Hv. apply sf_nan in E; [|exact Hp].
  destruct Hv as [[i ->]|[q ->]]; cbn; unfold compare_floats, f_cmp; rewrite E; reflexivity.
Qed.

Lemma Compare_mixed_witness :
  exists u v w, wf_value u /\ wf_value v /\ wf_value w /\
    Compare u v = Some Eq /\ Compare v w = Some Eq /\ Compare u w = Some Lt.
Proof.
  exists (VInt (2 ^ 53)), (VFloat (f_of_int (2 ^ 53))), (VInt (2 ^ 53 + 1)).
  repeat split; vm_compute; congruence.
Qed.

(** ** Integers as floats *)

Lemma f_of_int_exact z : Z.abs z <= 2 ^ 53 -> is_u64 (f_of_int z) /\ f_isnan (f_of_int z) = false /\ f_val (f_of_int z) = z * 2 ^ 1074.
Proof.
  intros H. unfold f_of_int.
  destruct (Z.eqb_spec z 0) as [->|Hz]; [split; [unfold is_u64; lia|split; vm_compute; reflexivity]|].
  set (a := Z.abs z) in *. set (k := Z.log2 a).
  assert (0 < a) as Ha by (unfold a; lia).
  pose proof (Z.log2_spec a Ha) as Hk. fold k in Hk.
  pose proof (Z.log2_nonneg a) as Hk0. fold k in Hk0.
  assert (k <= 53) as Hk53.
  { unfold k. change 53 with (Z.log2 (2 ^ 53)). now apply Z.log2_le_mono. }
  set (q := if k <=? 52 then _ else _).
  assert (2 ^ 52 <= q < 2 ^ 53 /\ q * 2 ^ (k + 1022) = a * 2 ^ 1074) as [Hq Hv].
  { unfold q. destruct (Z.leb_spec k 52).
    - rewrite Z.pow_succ_r in Hk by lia.
      assert (2 ^ 52 = 2 ^ k * 2 ^ (52 - k)) as E by (rewrite <- Z.pow_add_r by lia; f_equal; lia).
      assert (0 < 2 ^ (52 - k)) by (apply Z.pow_pos_nonneg; lia).
      split.
      + change (2 ^ 53) with (2 * 2 ^ 52). rewrite E. nia.
      + rewrite <- Z.mul_assoc, <- Z.pow_add_r by lia. do 2 f_equal. lia.
    - assert (k = 53) as E by lia. clearbody k. subst k.
      assert (a = 2 ^ 53) as Ea by lia. clearbody a. subst a. clear. split; [split; vm_compute; congruence|vm_compute; reflexivity]. }
  clearbody q.
  assert (forall m, m = (k + 1023) * 2 ^ 52 + (q - 2 ^ 52) -> f_magval m = a * 2 ^ 1074) as Hm.
  { intros m ->. unfold f_magval.
    assert (((k + 1023) * 2 ^ 52 + (q - 2 ^ 52)) / 2 ^ 52 = k + 1023) as ->.
    { rewrite Z.div_add_l by lia. rewrite Z.div_small by lia. lia. }
    assert (((k + 1023) * 2 ^ 52 + (q - 2 ^ 52)) mod 2 ^ 52 = q - 2 ^ 52) as ->.
    { rewrite Z.add_comm, Z_mod_plus_full. apply Z.mod_small. lia. }
    destruct (Z.eqb_spec (k + 1023) 0); [lia|].
    replace (2 ^ 52 + (q - 2 ^ 52)) with q by lia.
    replace (k + 1023 - 1) with (k + 1022) by lia. exact Hv. }
  specialize (Hm _ eq_refl).
  set (m := (k + 1023) * 2 ^ 52 + (q - 2 ^ 52)) in *.
  assert (0 <= m < 1077 * 2 ^ 52) as Hr by (unfold m; nia).
  destruct (Z.ltb_spec z 0).
  - assert (f_mag (m + 2 ^ 63) = m) as E.
    { unfold f_mag. replace (m + 2 ^ 63) with (m + 1 * 2 ^ 63) by lia.
      rewrite Z_mod_plus_full. apply Z.mod_small. lia. }
    assert (f_sign (m + 2 ^ 63) = true) as Es by (unfold f_sign; apply Z.leb_le; lia).
    split; [unfold is_u64; lia|]. split.
    + unfold f_isnan. rewrite E. apply Z.ltb_ge. lia.
    + unfold f_val. rewrite Es, E, Hm. unfold a. rewrite Z.abs_neq by lia. ring.
  - assert (f_mag m = m) as E by (unfold f_mag; apply Z.mod_small; lia).
    assert (f_sign m = false) as Es by (unfold f_sign; apply Z.leb_gt; lia).
    split; [unfold is_u64; lia|]. split.
    + unfold f_isnan. rewrite E. apply Z.ltb_ge. lia.
    + unfold f_val. rewrite Es, E, Hm. unfold a. rewrite Z.abs_eq by lia. ring.
Qed.

(** A float pattern with an exact integer value. *)
Lemma float_is_int_val p z : is_u64 p -> float_is_int p z -> f_isnan p = false /\ f_val p = z * 2 ^ 1074.
Proof.
  intros Hp. unfold float_is_int, sf_of_bits. rewrite exp_of, frac_of by exact Hp.
  fold (f_sign p). unfold f_isnan, f_val, f_magval.
  pose proof (f_mag_range p) as Hr.
  pose proof (Z.div_mod (f_mag p) (2 ^ 52) ltac:(lia)) as E.
  pose proof (Z.mod_pos_bound (f_mag p) (2 ^ 52) ltac:(lia)) as Hb.
  assert (0 <= f_mag p / 2 ^ 52) as He by (apply Z.div_pos; lia).
  set (e := f_mag p / 2 ^ 52) in *. set (m := f_mag p mod 2 ^ 52) in *.
  set (g := f_mag p) in *. clearbody e m g.
  destruct (Z.eqb_spec e 2047) as [E1|E1].
  - destruct (m =? 0); intros [].
  - destruct (Z.eqb_spec e 0) as [E2|E2].
    + destruct m as [|m'|m'] eqn:Em.
      * intros ->. split; [lia|]. destruct (f_sign p); lia.
      * change (-1074 + 1074) with 0. change (2 ^ 0) with 1. intros H. split; [lia|].
        destruct (f_sign p); lia.
      * lia.
    + destruct (m + 2 ^ 52) as [|m'|m'] eqn:Em; try lia.
      replace (e - 1075 + 1074) with (e - 1) by lia. intros H. split.
      * lia.
      * rewrite <- H. rewrite (Z.add_comm (2 ^ 52) m), Em. destruct (f_sign p); [|reflexivity].
        change (Z.neg m') with (- Z.pos m'). ring.
Qed.

Lemma Compare_int_float_exact i q z :
  Z.abs i <= 2 ^ 53 -> is_u64 q -> float_is_int q z ->
  Compare (VInt i) (VFloat q) = Some (i ?= z).
Proof.
  intros Hi Hq Hf. destruct (f_of_int_exact i Hi) as (H1 & H2 & H3).
  destruct (float_is_int_val q z Hq Hf) as (H4 & H5).
  cbn. unfold compare_floats, f_cmp. rewrite H2, H4. cbn [orb].
  rewrite H3, H5. f_equal. set (P := 2 ^ 1074). assert (0 < P) by (apply Z.pow_pos_nonneg; lia).
  clearbody P. destruct (Z.compare_spec i z) as [->|Hlt|Hgt].
  - apply Z.compare_refl.
  - apply Z.compare_lt_iff. nia.
  - apply Z.compare_gt_iff. nia.
Qed.

Lemma cast_int_float_exact_lemma (X : FloatLib) i :
  Z.abs i <= 2 ^ 53 ->
  exists p, CastValue Float64Type (VInt i) = Ok (VFloat p) /\
    CastValue Int64Type (VFloat p) = Ok (VInt i).
Proof.
  intros H. exists (f_of_int i). split; [reflexivity|]. cbn. do 2 f_equal.
  destruct (f_of_int_exact i H) as (H1 & H2 & H3).
  unfold float_to_int, f_trunc. rewrite H2, H3.
  rewrite Z.quot_mul by (apply Z.pow_nonzero; lia).
  destruct ((- 2 ^ 63 <=? i) && (i <? 2 ^ 63)) eqn:E; [reflexivity|lia].
Qed.

(** ** Key order and Compare *)

Lemma MakeKey_single d v : MakeKey (keys_of [(0%nat, d)]) [v] = Some (encodeKeyValue [] v d).
Proof.
  rewrite MakeKey_cols by lia. cbn [nth_error]. unfold keys_of. cbn [map]. rewrite MakeKey_nil.
  now rewrite app_nil_r.
Qed.

Lemma key_compare_agree d v w k1 k2 :
  wf_value v -> wf_value w -> ~ is_nan v -> ~ is_nan w -> ~ mixed_numbers v w ->
  (d = true -> type_rank v = type_rank w) ->
  MakeKey (keys_of [(0%nat, d)]) [v] = Some k1 -> MakeKey (keys_of [(0%nat, d)]) [w] = Some k2 ->
  Compare v w = Some (if d then CompOpp (bytes_compare k1 k2) else bytes_compare k1 k2).
Proof.
  intros Wv Ww Nv Nw Nm Hd E1 E2.
  rewrite Compare_order by assumption.
  rewrite MakeKey_single in E1, E2. injection E1 as <-. injection E2 as <-.
  pose proof (encode_value_compare v w d [] [] Wv Ww) as H. rewrite !app_nil_r in H.
  rewrite H. unfold column_order. destruct d.
  - rewrite (proj2 (Z.eqb_eq _ _) (Hd eq_refl)). cbn [andb].
    destruct (value_order v w); reflexivity.
  - cbn [andb]. destruct (value_order v w); reflexivity.
Qed.

Lemma key_desc_null_witness :
  exists v w k1 k2,
    MakeKey (keys_of [(0%nat, true)]) [v] = Some k1 /\
    MakeKey (keys_of [(0%nat, true)]) [w] = Some k2 /\
    Compare v w = Some Lt /\ bytes_compare k1 k2 = Lt.
Proof.
  exists VNull, (VInt 1). eexists _, _. repeat split; vm_compute; reflexivity.
Qed.

(** ** Text *)

Lemma is_trim_blank b : is_trim b = true <-> blank b.
Proof.
  unfold is_trim, blank. rewrite !orb_true_iff, !byte_eqb_eq. tauto.
Qed.

Lemma trim_left_spec s : exists a, s = a ++ trim_left s /\ blanks a.
Proof.
  induction s as [|b s IH]; cbn [trim_left].
  - exists []. split; [reflexivity|constructor].
  - destruct (is_trim b) eqn:E.
    + destruct IH as (a & H & Ha). exists (b :: a). split; [cbn; now f_equal|].
      constructor; [now apply is_trim_blank|exact Ha].
    + exists []. split; [reflexivity|constructor].
Qed.

Lemma trim_left_blanks a s : blanks a -> trim_left (a ++ s) = trim_left s.
Proof.
  induction a as [|b a IH]; intros H; [reflexivity|]. inversion_clear H. cbn [app trim_left].
  rewrite (proj2 (is_trim_blank b)) by assumption. auto.
Qed.

Lemma trim_left_id b s : ~ blank b -> trim_left (b :: s) = b :: s.
Proof.
  intros H. cbn. destruct (is_trim b) eqn:E; [|reflexivity]. apply is_trim_blank in E. tauto.
Qed.

Lemma trim_spec s : exists a b, s = a ++ trim s ++ b /\ blanks a /\ blanks b.
Proof.
  unfold trim. destruct (trim_left_spec s) as (a & H & Ha).
  destruct (trim_left_spec (rev (trim_left s))) as (b & H' & Hb).
  exists a, (rev b). split; [|split; [exact Ha|now apply Forall_rev]].
  rewrite H at 1. f_equal.
  apply (f_equal (@rev byte)) in H'. rewrite rev_involutive, rev_app_distr in H'. exact H'.
Qed.

Lemma trim_pad a t b :
  blanks a -> blanks b ->
  (forall x r, t = x :: r -> ~ blank x) -> (forall x r, t = r ++ [x] -> ~ blank x) ->
  trim (a ++ t ++ b) = t.
Proof.
  intros Ha Hb H1 H2. unfold trim. rewrite trim_left_blanks by exact Ha.
  destruct t as [|x t'].
  - cbn [app]. replace b with (b ++ []) by apply app_nil_r. rewrite trim_left_blanks by exact Hb. reflexivity.
  - cbn [app]. rewrite trim_left_id by (now apply (H1 x t')).
    change (x :: t' ++ b) with ((x :: t') ++ b). rewrite rev_app_distr.
    rewrite trim_left_blanks by now apply Forall_rev.
    destruct (rev (x :: t')) as [|y r] eqn:E.
    { apply (f_equal (@rev byte)) in E. rewrite rev_involutive in E. discriminate. }
    assert (x :: t' = rev r ++ [y]) as E'.
    { apply (f_equal (@rev byte)) in E. rewrite rev_involutive in E. exact E. }
    rewrite trim_left_id by (now apply (H2 y (rev r))).
    rewrite <- E. apply rev_involutive.
Qed.

Lemma digit_not_blank b : digit b -> ~ blank b.
Proof.
  unfold digit, blank. intros H [E|[E|E]]; subst b; cbv in H; destruct H as [H _]; now apply H.
Qed.

Lemma int_text_ends t i : int_text t i ->
  (forall x r, t = x :: r -> ~ blank x) /\ (forall x r, t = r ++ [x] -> ~ blank x).
Proof.
  intros H.
  assert (forall ds, ds <> [] -> Forall digit ds -> forall x r, ds = r ++ [x] -> ~ blank x) as Hl.
  { intros ds _ Hd x r ->. apply Forall_app in Hd. destruct Hd as [_ Hd]. inversion_clear Hd.
    now apply digit_not_blank. }
  assert (forall c ds, ds <> [] -> Forall digit ds -> forall x r, c :: ds = r ++ [x] -> ~ blank x) as Hl2.
  { intros c ds Hn Hd x r E. destruct r as [|r0 r].
    - injection E as _ E. congruence.
    - injection E as _ E. now apply (Hl ds Hn Hd x r). }
  assert (~ blank x2b) by (intros [E|[E|E]]; discriminate).
  assert (~ blank x2d) by (intros [E|[E|E]]; discriminate).
  destruct H as [ds Hn Hd|ds Hn Hd|ds Hn Hd]; split.
  - intros x r ->. inversion_clear Hd. now apply digit_not_blank.
  - now apply Hl.
  - now intros x r [= <- _].
  - now apply Hl2.
  - now intros x r [= <- _].
  - now apply Hl2.
Qed.

Lemma parse_digits_spec s acc :
  match parse_digits acc s with
  | Some n => Forall digit s /\ n = fold_left (fun a b => a * 10 + (bz b - 48)) s acc
  | None => ~ Forall digit s
  end.
Proof.
  revert acc; induction s as [|b s IH]; intros acc; cbn [parse_digits fold_left].
  - split; [constructor|reflexivity].
  - destruct ((48 <=? bz b) && (bz b <=? 57)) eqn:E.
    + specialize (IH (acc * 10 + (bz b - 48))).
      destruct (parse_digits _ s).
      * destruct IH as [H1 H2]. split; [constructor; [unfold digit; lia|exact H1]|exact H2].
      * intros H. inversion_clear H. tauto.
    + intros H. inversion_clear H. unfold digit in *. lia.
Qed.

Lemma fold_dec_nonneg s acc : Forall digit s -> 0 <= acc ->
  0 <= fold_left (fun a b => a * 10 + (bz b - 48)) s acc.
Proof.
  revert acc; induction s as [|b s IH]; intros acc H Ha; cbn; [exact Ha|].
  inversion_clear H. apply IH; [assumption|]. unfold digit in *. lia.
Qed.

Lemma digit_not_sign b : digit b -> b <> x2b /\ b <> x2d.
Proof. unfold digit. intros H. split; intros ->; cbv in H; destruct H as [H _]; now apply H. Qed.

Lemma sign_cases b s :
  match b :: s with x2b :: r => (false, r) | x2d :: r => (true, r) | _ => (false, b :: s) end
  = if Byte.eqb b x2b then (false, s) else if Byte.eqb b x2d then (true, s) else (false, b :: s).
Proof. destruct b; reflexivity. Qed.

Lemma parse_int_spec s i : parse_int s = Some i <-> int_text s i /\ is_i64 i.
Proof.
  unfold parse_int. split.
  - assert (forall ds (neg : bool),
      match ds with
      | [] => None
      | _ => match parse_digits 0 ds with
             | None => None
             | Some n => if neg then if n <=? 2 ^ 63 then Some (- n) else None
                         else if n <? 2 ^ 63 then Some n else None
             end
      end = Some i ->
      ds <> [] /\ Forall digit ds /\ is_i64 i /\ i = if neg then - dec_value ds else dec_value ds) as Hx.
    { intros ds neg. destruct ds as [|d ds]; [discriminate|]. intros H.
      pose proof (parse_digits_spec (d :: ds) 0) as P.
      destruct (parse_digits 0 (d :: ds)) as [n|]; [|discriminate].
      destruct P as [P1 P2]. split; [discriminate|]. split; [exact P1|].
      pose proof (fold_dec_nonneg (d :: ds) 0 P1 ltac:(lia)) as Hn. rewrite <- P2 in Hn.
      fold (dec_value (d :: ds)) in P2.
      unfold is_i64. destruct neg.
      - destruct (Z.leb_spec n (2 ^ 63)); [|discriminate]. injection H as <-. split; [lia|]. now rewrite P2.
      - destruct (Z.ltb_spec n (2 ^ 63)); [|discriminate]. injection H as <-. split; [lia|]. now rewrite P2. }
    destruct s as [|b s]; [discriminate|]. rewrite sign_cases.
    destruct (Byte.eqb b x2b) eqn:E1; [|destruct (Byte.eqb b x2d) eqn:E2].
    + apply byte_eqb_eq in E1. subst b. intros H. apply (Hx s false) in H.
      destruct H as (H1 & H2 & H3 & ->). split; [now constructor|exact H3].
    + apply byte_eqb_eq in E2. subst b. intros H. apply (Hx s true) in H.
      destruct H as (H1 & H2 & H3 & ->). split; [now constructor|exact H3].
    + intros H. apply (Hx (b :: s) false) in H.
      destruct H as (H1 & H2 & H3 & ->). split; [now constructor|exact H3].
  - intros [H Hr]. unfold is_i64 in Hr. destruct H as [ds Hn Hd|ds Hn Hd|ds Hn Hd].
    + destruct ds as [|b ds]; [easy|].
      rewrite sign_cases.
      assert (Byte.eqb b x2b = false /\ Byte.eqb b x2d = false) as [-> ->].
      { inversion_clear Hd as [|? ? Hb ?]. apply digit_not_sign in Hb. destruct Hb.
        split; apply not_true_is_false; rewrite byte_eqb_eq; assumption. }
      pose proof (parse_digits_spec (b :: ds) 0) as P.
      destruct (parse_digits 0 (b :: ds)) as [n|]; [|tauto].
      destruct P as [_ P]. fold (dec_value (b :: ds)) in P. subst n.
      destruct (Z.ltb_spec (dec_value (b :: ds)) (2 ^ 63)); [reflexivity|lia].
    + destruct ds as [|b ds]; [easy|].
      pose proof (parse_digits_spec (b :: ds) 0) as P.
      destruct (parse_digits 0 (b :: ds)) as [n|]; [|tauto].
      destruct P as [_ P]. fold (dec_value (b :: ds)) in P. subst n.
      destruct (Z.ltb_spec (dec_value (b :: ds)) (2 ^ 63)); [reflexivity|lia].
    + destruct ds as [|b ds]; [easy|].
      pose proof (parse_digits_spec (b :: ds) 0) as P.
      destruct (parse_digits 0 (b :: ds)) as [n|]; [|tauto].
      destruct P as [_ P]. fold (dec_value (b :: ds)) in P. subst n.
      destruct (Z.leb_spec (dec_value (b :: ds)) (2 ^ 63)); [reflexivity|lia].
Qed.

Lemma dec_value_app a b : dec_value (a ++ [b]) = dec_value a * 10 + (bz b - 48).
Proof. unfold dec_value. now rewrite fold_left_app. Qed.

Lemma fold_dec_acc s acc :
  fold_left (fun a b => a * 10 + (bz b - 48)) s acc = acc * 10 ^ zlen s + dec_value s.
Proof.
  unfold dec_value, zlen. revert acc; induction s as [|b s IH]; intros acc; cbn [fold_left length].
  - cbn. lia.
  - rewrite IH, (IH (0 * 10 + _)). rewrite Nat2Z.inj_succ, Z.pow_succ_r by lia. ring.
Qed.

Lemma digit_zb n : bz (zb (48 + n mod 10)) = 48 + n mod 10.
Proof. rewrite bz_zb. pose proof (Z.mod_pos_bound n 10). apply Z.mod_small. lia. Qed.

Lemma format_digits_spec fuel n acc :
  0 <= n < 10 ^ Z.of_nat fuel -> (0 < fuel)%nat ->
  exists ds, format_digits fuel n acc = ds ++ acc /\ ds <> [] /\ Forall digit ds /\ dec_value ds = n /\
    (n = 0 \/ exists d r, ds = d :: r /\ d <> x30).
Proof.
  revert n acc; induction fuel as [|fuel IH]; intros n acc Hn Hf; [lia|].
  cbn [format_digits]. pose proof (Z.mod_pos_bound n 10 ltac:(lia)) as Hm.
  pose proof (Z.div_mod n 10 ltac:(lia)) as Hd.
  assert (digit (zb (48 + n mod 10))) as Hdig by (unfold digit; rewrite digit_zb; lia).
  destruct (Z.ltb_spec n 10) as [H|H].
  - exists [zb (48 + n mod 10)]. split; [reflexivity|]. split; [discriminate|].
    rewrite Z.mod_small in * by lia.
    split; [now constructor|]. split.
    + unfold dec_value. cbn [fold_left]. pose proof (digit_zb n) as E. rewrite Z.mod_small in E by lia.
      rewrite E. lia.
    + destruct (Z.eq_dec n 0); [now left|right]. eexists _, []. split; [reflexivity|].
      intros E. apply (f_equal bz) in E. pose proof (digit_zb n) as E2. rewrite Z.mod_small in E2 by lia.
      rewrite E2 in E. change (bz x30) with 48 in E. lia.
  - rewrite Nat2Z.inj_succ, Z.pow_succ_r in Hn by lia.
    destruct fuel as [|fuel]; [cbn in Hn; lia|].
    assert (1 <= n / 10) by (apply Z.div_le_lower_bound; lia).
    destruct (IH (n / 10) (zb (48 + n mod 10) :: acc)) as (ds & E & E1 & E2 & E3 & E4).
    + split; [apply Z.div_pos; lia|]. apply Z.div_lt_upper_bound; lia.
    + lia.
    + exists (ds ++ [zb (48 + n mod 10)]). rewrite E. split; [now rewrite <- app_assoc|].
      split; [now destruct ds|]. split; [apply Forall_app; now split; [|constructor]|]. split.
      * rewrite dec_value_app, E3, digit_zb. lia.
      * right. destruct E4 as [E4|(d & r & -> & E4)]; [lia|].
        exists d, (r ++ [zb (48 + n mod 10)]). now split.
Qed.

Lemma format_int_text i : is_i64 i -> int_text (format_int i) i.
Proof.
  unfold is_i64. intros H. unfold format_int.
  assert (10 ^ Z.of_nat 20 = 100000000000000000000) as Hp by reflexivity.
  destruct (Z.ltb_spec i 0).
  - destruct (format_digits_spec 20 (- i) []) as (ds & -> & H1 & H2 & H3 & _); [lia|lia|].
    rewrite app_nil_r. replace i with (- dec_value ds) by lia. now constructor.
  - destruct (format_digits_spec 20 i []) as (ds & -> & H1 & H2 & H3 & _); [lia|lia|].
    rewrite app_nil_r. rewrite <- H3. now constructor.
Qed.

Section Ext.
  Context {X : FloatLib}.

  Lemma cast_text_int_lemma s i :
    CastValue Int64Type (VString s) = Ok (VInt i) <->
    exists a t b, s = a ++ t ++ b /\ blanks a /\ blanks b /\ int_text t i /\ is_i64 i.
  Proof.
    cbn [CastValue]. split.
    - destruct (parse_int (trim s)) as [j|] eqn:E; [|discriminate]. intros [= ->].
      apply parse_int_spec in E. destruct E as [E1 E2].
      destruct (trim_spec s) as (a & b & Hs & Ha & Hb). now exists a, (trim s), b.
    - intros (a & t & b & -> & Ha & Hb & Ht & Hi).
      destruct (int_text_ends t i Ht) as [E1 E2].
      rewrite trim_pad by assumption. now rewrite (proj2 (parse_int_spec t i)) by now split.
  Qed.

  Lemma cast_text_int_fails_lemma s :
    (forall i, CastValue Int64Type (VString s) <> Ok (VInt i)) ->
    CastValue Int64Type (VString s) = Err ErrCast.
  Proof.
    cbn [CastValue]. destruct (parse_int (trim s)) as [i|]; [|reflexivity].
    intros H. now specialize (H i).
  Qed.

  Lemma cast_int_round_trip_lemma i a b :
    is_i64 i -> blanks a -> blanks b ->
    exists s, CastValue StringType (VInt i) = Ok (VString s) /\ int_text s i /\
      CastValue Int64Type (VString (a ++ s ++ b)) = Ok (VInt i).
  Proof.
    intros Hi Ha Hb. exists (format_int i). split; [reflexivity|].
    split; [now apply format_int_text|].
    apply cast_text_int_lemma. exists a, (format_int i), b. split; [reflexivity|].
    split; [exact Ha|]. split; [exact Hb|]. split; [now apply format_int_text|exact Hi].
  Qed.

  Lemma is_word_spec s ws : is_word s ws = true <-> In s ws.
  Proof.
    unfold is_word. rewrite existsb_exists. split.
    - intros (w & Hw & E). apply bytes_eqb_eq in E. now subst.
    - intros H. exists s. split; [exact H|apply bytes_eqb_refl].
  Qed.

  Lemma word_ends w : In w (true_words ++ false_words) ->
    (forall x r, w = x :: r -> ~ blank x) /\ (forall x r, w = r ++ [x] -> ~ blank x).
  Proof.
    intros H.
    assert (Forall (fun b => ~ blank b) w) as F.
    { cbn in H. repeat destruct H as [<-|H]; try tauto;
        repeat constructor; intros [E|[E|E]]; discriminate. }
    split; intros x r ->.
    - now inversion F.
    - apply Forall_app in F. destruct F as [_ F]. now inversion F.
  Qed.

  Lemma words_disjoint w : In w true_words -> In w false_words -> False.
  Proof.
    cbn. intros H1 H2. repeat destruct H1 as [<-|H1]; try tauto;
      repeat destruct H2 as [H2|H2]; try discriminate; tauto.
  Qed.

  Lemma cast_text_bool_lemma s b :
    CastValue BoolType (VString s) = Ok (VBool b) <->
    exists l t r, s = l ++ t ++ r /\ blanks l /\ blanks r /\
      In t (bool_words b).
  Proof.
    assert (bool_words b = if b then true_words else false_words) as -> by now destruct b.
    cbn [CastValue]. split.
    - destruct (trim_spec s) as (l & r & Hs & Hl & Hr).
      destruct (is_word (trim s) true_words) eqn:E1.
      + intros [= <-]. apply is_word_spec in E1. now exists l, (trim s), r.
      + destruct (is_word (trim s) false_words) eqn:E2; [|discriminate].
        intros [= <-]. apply is_word_spec in E2. now exists l, (trim s), r.
    - intros (l & t & r & -> & Hl & Hr & Ht).
      destruct (word_ends t) as [E1 E2].
      { apply in_or_app. destruct b; tauto. }
      rewrite trim_pad by assumption.
      destruct b.
      + now rewrite (proj2 (is_word_spec t true_words)).
      + destruct (is_word t true_words) eqn:E.
        * apply is_word_spec in E. now destruct (words_disjoint t).
        * now rewrite (proj2 (is_word_spec t false_words)).
  Qed.

  (** ** ConvertValue *)

  Lemma u32_len {A} (s : list A) : zlen s < 2 ^ 32 -> u32 (zlen s) = zlen s.
  Proof. intros H. apply Z.mod_small. unfold zlen in *. lia. Qed.

  Lemma CastValue_type vt v w :
    v <> VNull -> CastValue vt v = Ok w ->
    match vt with
    | BoolType => exists b, w = VBool b
    | StringType => exists s, w = VString s
    | BytesType => exists s, w = VBytes s
    | Float64Type => exists p, w = VFloat p
    | Int64Type => exists i, w = VInt i
    | UnknownType => False
    end.
  Proof.
    intros Hn H. destruct v as [|b|s|s|p|i]; [easy|..]; destruct vt; cbn [CastValue] in H; try discriminate;
      repeat match type of H with
      | (if ?c then _ else _) = _ => destruct c; try discriminate
      | (match ?c with Some _ => _ | None => _ end) = _ => destruct c; try discriminate
      end; injection H as <-; eexists; reflexivity.
  Qed.

  Lemma CastValue_id vt v w : CastValue vt v = Ok w -> CastValue vt w = Ok w.
  Proof.
    intros H. destruct v as [|b|s|s|p|i].
    1: { injection H as <-. reflexivity. }
    all: apply CastValue_type in H; [|discriminate]; destruct vt; try tauto;
      destruct H as [x ->]; reflexivity.
  Qed.

  Lemma f_of_int_u64 i : is_i64 i -> is_u64 (f_of_int i).
  Proof.
    unfold is_i64, is_u64. intros H. unfold f_of_int.
    destruct (Z.eqb_spec i 0); [lia|].
    set (a := Z.abs i). set (k := Z.log2 a).
    assert (0 < a <= 2 ^ 63) as Ha by (unfold a; lia).
    pose proof (Z.log2_spec a ltac:(lia)) as Hk. fold k in Hk.
    pose proof (Z.log2_nonneg a) as Hk0. fold k in Hk0.
    assert (k <= 63) as Hk63.
    { unfold k. change 63 with (Z.log2 (2 ^ 63)). apply Z.log2_le_mono. lia. }
    set (q := if k <=? 52 then _ else _).
    assert (2 ^ 52 <= q <= 2 ^ 53) as Hq.
    { unfold q. rewrite Z.pow_succ_r in Hk by lia. destruct (Z.leb_spec k 52).
      - assert (2 ^ 52 = 2 ^ k * 2 ^ (52 - k)) as E by (rewrite <- Z.pow_add_r by lia; f_equal; lia).
        assert (0 < 2 ^ (52 - k)) by (apply Z.pow_pos_nonneg; lia).
        change (2 ^ 53) with (2 * 2 ^ 52). rewrite E. nia.
      - assert (2 ^ k = 2 ^ 52 * 2 ^ (k - 52)) as E by (rewrite <- Z.pow_add_r by lia; f_equal; lia).
        assert (0 < 2 ^ (k - 52)) by (apply Z.pow_pos_nonneg; lia).
        assert (2 ^ 52 <= a / 2 ^ (k - 52)) by (apply Z.div_le_lower_bound; lia).
        assert (a / 2 ^ (k - 52) < 2 ^ 53).
        { apply Z.div_lt_upper_bound; [lia|]. change (2 ^ 53) with (2 * 2 ^ 52). lia. }
        cbv zeta. destruct ((_ <? _) || _); lia. }
    clearbody q k. clear Hk. destruct (i <? 0); lia.
  Qed.

  Lemma CastValue_wf vt v w : FloatLib_ok X -> wf_value v -> CastValue vt v = Ok w -> wf_value w.
  Proof.
    intros [X1 X2] Hv H. destruct v as [|b|s|s|p|i].
    1: { injection H as <-. exact I. }
    all: destruct vt; cbn [CastValue] in H; try discriminate;
      try (injection H as <-; exact Hv); try (injection H as <-; exact I);
      repeat match type of H with
      | (if ?c then _ else _) = _ => destruct c; try discriminate
      end; try (injection H as <-; exact I).
    - destruct (x_parse_float (trim s)) eqn:E; [|discriminate]. injection H as <-. now apply X1 in E.
    - destruct (parse_int (trim s)) eqn:E; [|discriminate]. injection H as <-.
      now apply parse_int_spec in E.
    - injection H as <-. cbn. unfold float_to_int. destruct (f_trunc p) eqn:E; [|apply X2].
      unfold f_trunc in E. destruct (f_isnan p); [discriminate|].
      destruct ((- 2 ^ 63 <=? _) && _) eqn:E2; [|discriminate]. injection E as <-.
      unfold is_i64. lia.
    - injection H as <-. cbn in *. now apply f_of_int_u64.
  Qed.

  Lemma convert_conforms_lemma ct v w :
    FloatLib_ok X -> is_u32 (ct_size ct) -> wf_value v ->
    (forall s, w = VString s \/ w = VBytes s -> zlen s < 2 ^ 32) ->
    ConvertValue ct v = Ok w ->
    admits ct w /\ wf_value w /\ (w = VNull <-> v = VNull) /\ ConvertValue ct w = Ok w.
  Proof.
    intros HX Hs Hv Hlen H.
    destruct (match v with VNull => true | _ => false end) eqn:En.
    { destruct v; try discriminate. cbn [ConvertValue] in *.
      destruct (ct_notnull ct) eqn:E; [discriminate|]. injection H as <-. cbn. rewrite E.
      repeat split; reflexivity. }
    assert (v <> VNull) as Hn by now destruct v.
    assert (exists u, CastValue (ct_type ct) v = Ok u) as [u Hu].
    { destruct v; try discriminate; cbn [ConvertValue] in H;
        destruct (CastValue _ _) as [u| |]; try discriminate; now exists u. }
    pose proof (CastValue_type _ _ _ Hn Hu) as Ht.
    pose proof (CastValue_wf _ _ _ HX Hv Hu) as Hw.
    assert (w = u) as ->.
    { destruct v; try discriminate; cbn [ConvertValue] in H; rewrite Hu in H; cbn [rbind] in H;
        destruct (ct_type ct); try tauto; destruct Ht as [x ->];
        repeat match type of H with
        | (if ?c then _ else _) = _ => destruct c; try discriminate
        end; congruence. }
    assert (admits ct u /\ u <> VNull) as [Ha Hnn].
    { clear Hv. destruct v; try discriminate; cbn [ConvertValue] in H; rewrite Hu in H; cbn [rbind] in H;
        clear Hn En;
        destruct (ct_type ct) eqn:Ect; try tauto; destruct Ht as [x ->]; (split; [|discriminate]);
        cbn [admits]; try rewrite Ect; try reflexivity; (split; [reflexivity|]);
        try (rewrite u32_len in H by (apply Hlen; tauto);
             destruct (Z.ltb_spec (ct_size ct) (zlen x)); [discriminate|lia]);
        (split; intros Hsz; rewrite Hsz in H; cbn [Z.eqb andb Pos.eqb] in H;
         match type of H with context [if ?b then _ else _] => destruct b eqn:Eo end; first [discriminate|lia]). }
    split; [exact Ha|]. split; [exact Hw|]. split; [tauto|].
    pose proof (CastValue_id _ _ _ Hu) as Hid.
    assert (forall t : value -> res value, rbind (CastValue (ct_type ct) v) t = rbind (CastValue (ct_type ct) u) t) as E.
    { intros t. now rewrite Hu, Hid. }
    destruct v; try discriminate; cbn [ConvertValue] in H; rewrite E in H;
      destruct u; try tauto; exact H.
  Qed.

  Lemma convert_accepts_lemma ct v :
    is_u32 (ct_size ct) -> admits ct v -> ConvertValue ct v = Ok v.
  Proof.
    intros Hs H. unfold is_u32 in Hs. destruct v as [|b|s|s|p|i]; cbn [admits ConvertValue] in *.
    - now rewrite H.
    - rewrite H. reflexivity.
    - destruct H as [-> H]. cbn [CastValue rbind]. rewrite u32_len by lia.
      destruct (Z.ltb_spec (ct_size ct) (zlen s)); [lia|reflexivity].
    - destruct H as [-> H]. cbn [CastValue rbind]. rewrite u32_len by lia.
      destruct (Z.ltb_spec (ct_size ct) (zlen s)); [lia|reflexivity].
    - rewrite H. reflexivity.
    - destruct H as (-> & H2 & H4). cbn [CastValue rbind].
      destruct ((ct_size ct =? 2) && _) eqn:E1.
      { exfalso. assert (ct_size ct = 2) by lia. specialize (H2 ltac:(assumption)). lia. }
      destruct ((ct_size ct =? 4) && _) eqn:E2; [|reflexivity].
      exfalso. assert (ct_size ct = 4) by lia. specialize (H4 ltac:(assumption)). lia.
  Qed.

  (** ** ConvertRow *)

  Lemma convertRowLoop_spec cts r nrow :
    (length r <= length cts)%nat ->
    (convertRowLoop cts r = Ok nrow <->
     length nrow = length cts /\
     (forall i ct v, nth_error cts i = Some ct -> nth_error r i = Some v ->
        exists w, nth_error nrow i = Some w /\ ConvertValue ct v = Ok w) /\
     (forall i, (length r <= i < length cts)%nat -> nth_error nrow i = Some VNull)).
  Proof.
    revert r nrow; induction cts as [|ct cts IH]; intros r nrow Hl.
    - destruct r; [|cbn in Hl; lia]. cbn [convertRowLoop]. split.
      + intros [= <-]. split; [reflexivity|]. split.
        * intros i ct v H. destruct i; discriminate.
        * intros i Hi. cbn in Hi. lia.
      + intros (H & _). now destruct nrow.
    - destruct r as [|v r]; cbn [convertRowLoop].
      + split.
        * intros [= <-]. split; [cbn [length map]; now rewrite map_length|]. split.
          -- intros i ct' v H H'. destruct i; discriminate.
          -- intros i Hi. change (VNull :: map (fun _ => VNull) cts) with (map (fun _ : coltype => VNull) (ct :: cts)).
             rewrite nth_error_map.
             destruct (nth_error (ct :: cts) i) eqn:E; [reflexivity|].
             apply nth_error_None in E. lia.
        * intros (H1 & _ & H3). f_equal.
          apply nth_error_ext. intros i.
          change (VNull :: map (fun _ => VNull) cts) with (map (fun _ : coltype => VNull) (ct :: cts)).
          rewrite nth_error_map.
          destruct (nth_error (ct :: cts) i) eqn:E.
          -- rewrite H3; [reflexivity|]. split; [cbn; lia|]. apply nth_error_Some. congruence.
          -- symmetry. apply nth_error_None. apply nth_error_None in E. cbn [length] in *. lia.
      + cbn [length] in Hl. specialize (IH r). split.
        * destruct (ConvertValue ct v) as [v'| |] eqn:Ev; try discriminate. cbn [rbind].
          destruct (convertRowLoop cts r) as [n| |] eqn:En; try discriminate. cbn [rbind].
          intros [= <-]. destruct (proj1 (IH n ltac:(lia)) eq_refl) as (H1 & H2 & H3).
          split; [cbn; lia|]. split.
          -- intros [|i] ct' u; cbn [nth_error].
             ++ intros [= <-] [= <-]. now exists v'.
             ++ apply H2.
          -- intros [|i] Hi; cbn [length] in Hi; [lia|]. cbn [nth_error]. apply H3. lia.
        * intros (H1 & H2 & H3). destruct nrow as [|w nrow]; [discriminate|].
          destruct (H2 0%nat ct v eq_refl eq_refl) as (w' & [= <-] & Ew). rewrite Ew. cbn [rbind].
          rewrite (proj2 (IH nrow ltac:(lia))); [reflexivity|].
          split; [cbn in H1; lia|]. split.
          -- intros i ct' u Hc Hu. exact (H2 (S i) ct' u Hc Hu).
          -- intros i Hi. apply (H3 (S i)). cbn [length]. lia.
  Qed.

  Lemma convert_row_lemma cts r nrow :
    ConvertRow cts r = Ok nrow <->
    (length r <= length cts)%nat /\ length nrow = length cts /\
    (forall i ct v, nth_error cts i = Some ct -> nth_error r i = Some v ->
       exists w, nth_error nrow i = Some w /\ ConvertValue ct v = Ok w) /\
    (forall i, (length r <= i < length cts)%nat -> nth_error nrow i = Some VNull).
  Proof.
    unfold ConvertRow, zlen. destruct (Z.ltb_spec (Z.of_nat (length cts)) (Z.of_nat (length r))) as [H|H].
    - split; [discriminate|]. intros [H1 _]. lia.
    - assert (length r <= length cts)%nat as Hl by lia.
      rewrite (convertRowLoop_spec cts r nrow Hl). tauto.
  Qed.

  Lemma ConvertValue_no_panic ct v : ct_type ct <> UnknownType -> ConvertValue ct v <> Panic.
  Proof.
    intros H.
    destruct v as [|b|s|s|p|i]; cbn [ConvertValue];
      [destruct (ct_notnull ct); discriminate|..];
      destruct (ct_type ct) eqn:E; try congruence; cbn [CastValue rbind];
      repeat match goal with
      | |- (if ?c then _ else _) <> _ => destruct c; cbn [rbind]; try discriminate
      | |- rbind (if ?c then _ else _) _ <> _ => destruct c; cbn [rbind]; try discriminate
      | |- rbind (match ?c with Some _ => _ | None => _ end) _ <> _ => destruct c; cbn [rbind]; try discriminate
      end; discriminate.
  Qed.

  Lemma convert_row_long_lemma cts r :
    (length cts < length r)%nat -> ConvertRow cts r = Err ErrRowTooLong.
  Proof.
    intros H. unfold ConvertRow, zlen.
    destruct (Z.ltb_spec (Z.of_nat (length cts)) (Z.of_nat (length r))); [reflexivity|lia].
  Qed.
End Ext.

Lemma convert_row_null_witness :
  forall X : FloatLib, exists cts r nrow ct,
    ConvertRow cts r = Ok nrow /\ nth_error cts 1 = Some ct /\
    ct_notnull ct = true /\ nth_error nrow 1 = Some VNull.
Proof.
  intros X. exists [Int64ColType; Int64ColType], [VInt 1], [VInt 1; VNull], Int64ColType.
  repeat split.
Qed.

(** An instance of the parts of Go's library that are not modelled, for the
    examples: every float is printed as a zero and no text is a float. *)
Definition FloatLib_example : FloatLib := {|
  x_format_float := fun _ => str "0";
  x_parse_float := fun _ => None;
  x_float_to_int := fun _ => 0
|}.

Lemma FloatLib_example_ok : FloatLib_ok FloatLib_example.
Proof. split; cbn; [discriminate|]. intros _. unfold is_i64. lia. Qed.
