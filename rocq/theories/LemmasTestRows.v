(** The comparison of rows in tests. *)

From Verif Require Import SpecTestutil LemmasBase LemmasValue.

Lemma CompareRows_total r1 : forall r2, exists c, CompareRows r1 r2 = Some c.
Proof.
  induction r1 as [|v r1 IH]; intros [|w r2]; cbn [CompareRows]; try (now eexists).
  destruct (Compare_total_lemma v w) as [c E]. rewrite E. destruct c; [apply IH|now eexists..].
Qed.

Lemma CompareRows_antisym r1 : forall r2 c, CompareRows r1 r2 = Some c -> CompareRows r2 r1 = Some (CompOpp c).
Proof.
  induction r1 as [|v r1 IH]; intros [|w r2] c; cbn [CompareRows]; try (now intros [= <-]).
  destruct (Compare_total_lemma v w) as [d E]. rewrite E, (Compare_antisym_lemma _ _ _ E). destruct d; cbn [CompOpp]; [apply IH|now intros [= <-]..].
Qed.

Lemma unmixed_cons v r w s : unmixed (v :: r) (w :: s) -> ~ mixed_numbers v w /\ unmixed r s.
Proof. intros H. split; [exact (H O)|]. intros i. exact (H (S i)). Qed.
Lemma unmixed_sym r s : unmixed r s -> unmixed s r.
Proof. intros H i M. apply (H i). destruct (nth i r VNull), (nth i s VNull); exact M. Qed.

Lemma CompareRows_trans r1 : forall r2 r3 a b c, proper_row r1 -> proper_row r2 -> proper_row r3 ->
  unmixed r1 r2 -> unmixed r2 r3 -> unmixed r1 r3 ->
  CompareRows r1 r2 = Some a -> CompareRows r2 r3 = Some b -> CompareRows r1 r3 = Some c ->
  (a = Lt -> b = Lt -> c = Lt) /\ (a = Eq -> c = b) /\ (b = Eq -> c = a).
Proof.
  induction r1 as [|u r1 IH]; intros [|v r2] [|w r3] a b c P1 P2 P3 U1 U2 U3; cbn [CompareRows]; intros E1 E2 E3.
  1-4: try (injection E1 as <-); try (injection E2 as <-); try (injection E3 as <-); split; [congruence|split; congruence].
  1-3: try (injection E1 as <-); try (injection E2 as <-); try (injection E3 as <-); split; [congruence|split; congruence].
  inversion P1 as [|? ? [W1 N1] P1']; inversion P2 as [|? ? [W2 N2] P2']; inversion P3 as [|? ? [W3 N3] P3']; subst.
  apply unmixed_cons in U1 as [M1 U1]. apply unmixed_cons in U2 as [M2 U2]. apply unmixed_cons in U3 as [M3 U3].
  destruct (Compare_total_lemma u v) as [x X], (Compare_total_lemma v w) as [y Y], (Compare_total_lemma u w) as [z Z]. rewrite X in E1. rewrite Y in E2. rewrite Z in E3.
  destruct (Compare_trans_lemma u v w x y z W1 W2 W3 N1 N2 N3 M1 M2 M3 X Y Z) as (T1 & T2 & T3).
  destruct x, y; try (rewrite T2 in E3 by reflexivity); try (rewrite T3 in E3 by reflexivity); try (rewrite T1 in E3 by reflexivity);
    try (exact (IH r2 r3 a b c P1' P2' P3' U1 U2 U3 E1 E2 E3));
    try (injection E1 as <-); try (injection E2 as <-); try (injection E3 as <-); (split; [congruence|split; congruence]).
Qed.

Lemma CompareRows_eq r1 : forall r2, proper_row r1 -> proper_row r2 -> unmixed r1 r2 -> (CompareRows r1 r2 = Some Eq <-> same_row r1 r2).
Proof.
  induction r1 as [|v r1 IH]; intros [|w r2] P1 P2 U; cbn [CompareRows].
  - split; [constructor|reflexivity].
  - split; [discriminate|inversion 1].
  - split; [discriminate|inversion 1].
  - inversion P1 as [|? ? [W1 N1] P1']; inversion P2 as [|? ? [W2 N2] P2']; subst. apply unmixed_cons in U as [M U].
    pose proof (Compare_eq_lemma v w W1 W2 N1 N2 M) as K. destruct (Compare_total_lemma v w) as [c E]. rewrite E in *. split.
    + destruct c; try discriminate. intros H. constructor; [now apply K|now apply IH].
    + inversion 1; subst. rewrite (proj2 K) in * by assumption. destruct c; try discriminate; [now apply IH|..]; (destruct K as [_ K]; specialize (K ltac:(assumption)); discriminate).
Qed.

Section Order.
  Variable rows : list row.
  Hypothesis C : comparable rows.

  Lemma rows_refl r : In r rows -> CompareRows r r = Some Eq.
  Proof.
    intros H. destruct C as [P U]. rewrite Forall_forall in P. apply CompareRows_eq; auto. clear. induction r as [|v r IH]; constructor; [now left|exact IH].
  Qed.
  Lemma rows_trans r1 r2 r3 a b c : In r1 rows -> In r2 rows -> In r3 rows ->
    CompareRows r1 r2 = Some a -> CompareRows r2 r3 = Some b -> CompareRows r1 r3 = Some c ->
    (a = Lt -> b = Lt -> c = Lt) /\ (a = Eq -> c = b) /\ (b = Eq -> c = a).
  Proof. intros H1 H2 H3. destruct C as [P U]. rewrite Forall_forall in P. apply CompareRows_trans; auto. Qed.
  Lemma not_less r1 r2 : CompareRows r1 r2 <> Some Lt -> CompareRows r2 r1 <> Some Lt -> CompareRows r1 r2 = Some Eq.
  Proof.
    intros H1 H2. destruct (CompareRows_total r1 r2) as [c E]. rewrite E in *. destruct c; [reflexivity|contradiction|].
    apply CompareRows_antisym in E. contradiction.
  Qed.
  Lemma comparable_order : an_order rows.
  Proof.
    intros r1 r2 r3 H1 H2 H3. split; [now rewrite rows_refl|].
    destruct (CompareRows_total r1 r2) as [a E1], (CompareRows_total r2 r3) as [b E2], (CompareRows_total r1 r3) as [c E3].
    destruct (rows_trans _ _ _ _ _ _ H1 H2 H3 E1 E2 E3) as (T1 & T2 & T3). split.
    - rewrite E1, E2, E3. intros [= ->] [= ->]. now rewrite T1.
    - intros N1 N2 N3 N4. rewrite (not_less _ _ N1 N2) in E1. rewrite (not_less _ _ N3 N4) in E2. injection E1 as <-. injection E2 as <-.
      rewrite T2 in E3 by reflexivity. rewrite E3, (CompareRows_antisym _ _ _ E3). split; discriminate.
  Qed.

  (** Counting the rows that equal a row. *)
  Definition eqv (r s : row) : bool := match CompareRows r s with Some Eq => true | _ => false end.
  Definition count (r : row) (l : list row) : nat := length (filter (eqv r) l).

  Lemma eqv_spec r s : eqv r s = true <-> CompareRows r s = Some Eq.
  Proof. unfold eqv. destruct (CompareRows r s) as [[]|]; split; congruence. Qed.
  Lemma eqv_same x r s : In x rows -> In r rows -> In s rows -> CompareRows r s = Some Eq -> eqv x r = eqv x s.
  Proof.
    intros Hx Hr Hs E. destruct (CompareRows_total x r) as [a E1], (CompareRows_total x s) as [c E2].
    destruct (rows_trans x r s _ _ _ Hx Hr Hs E1 E E2) as (_ & _ & T). unfold eqv. rewrite E1, E2, T; reflexivity.
  Qed.
  Lemma count_perm r l l' : Permutation l l' -> count r l = count r l'.
  Proof.
    unfold count. induction 1 as [|x l l' _ IH|x y l|l m n _ IH1 _ IH2]; cbn [filter]; try reflexivity.
    - destruct (eqv r x); cbn [length]; now rewrite IH.
    - now destruct (eqv r x), (eqv r y).
    - now rewrite IH1.
  Qed.
  Lemma count_equal x l l' : In x rows -> incl l rows -> incl l' rows -> Forall2 (fun r s => CompareRows r s = Some Eq) l l' -> count x l = count x l'.
  Proof.
    intros Hx H1 H2. induction 1 as [|r s l l' E _ IH]; [reflexivity|]. unfold count in *. cbn [filter].
    rewrite (eqv_same x r s Hx) by (auto; (now apply H1; left) || (now apply H2; left)).
    assert (IH' := IH (fun z K => H1 z (or_intror K)) (fun z K => H2 z (or_intror K))). destruct (eqv x s); cbn [length]; now rewrite IH'.
  Qed.

  Definition no_less (r s : row) : Prop := CompareRows s r <> Some Lt.
  Lemma sorted_equal l : forall l', incl l rows -> incl l' rows -> StronglySorted no_less l -> StronglySorted no_less l' ->
    (forall x, In x rows -> count x l = count x l') -> Forall2 (fun r s => CompareRows r s = Some Eq) l l'.
  Proof.
    assert (Hd : forall r l0, In r rows -> (0 < count r (r :: l0))%nat) by (intros r l0 H; unfold count; cbn [filter]; unfold eqv; rewrite rows_refl by assumption; cbn; lia).
    assert (Mem : forall r l0, (0 < count r l0)%nat -> exists s, In s l0 /\ CompareRows r s = Some Eq).
    { intros r l0. unfold count. destruct (filter (eqv r) l0) as [|s l1] eqn:E; [cbn; lia|]. intros _. exists s. assert (K : In s (filter (eqv r) l0)) by (rewrite E; now left).
      apply filter_In in K. split; [apply K|]. now apply eqv_spec. }
    induction l as [|r l IH]; intros [|s l'] I1 I2 S1 S2 HC; [constructor|..].
    - exfalso. specialize (HC s (I2 _ (or_introl eq_refl))). specialize (Hd s l' (I2 _ (or_introl eq_refl))). cbn in HC. unfold count in *. cbn in *. lia.
    - exfalso. specialize (HC r (I1 _ (or_introl eq_refl))). specialize (Hd r l (I1 _ (or_introl eq_refl))). unfold count in *. cbn in *. lia.
    - assert (Hr : In r rows) by (apply I1; now left). assert (Hs : In s rows) by (apply I2; now left).
      apply StronglySorted_inv in S1 as [S1 F1]. apply StronglySorted_inv in S2 as [S2 F2]. rewrite Forall_forall in F1, F2.
      assert (E : CompareRows r s = Some Eq).
      { apply not_less.
        - (* r is not less than s: r equals some row that s is not above *)
          destruct (Mem r (s :: l')) as (x & Hx & Ex); [rewrite <- HC by assumption; now apply Hd|]. intros K.
          destruct Hx as [->|Hx]; [congruence|]. specialize (F2 x Hx). apply F2. destruct (CompareRows_total x s) as [c Ec]. pose proof (CompareRows_antisym _ _ _ Ex) as Ex'.
          destruct (rows_trans x r s _ _ _ (I2 _ (or_intror Hx)) Hr Hs Ex' K Ec) as (_ & T & _). rewrite T in Ec; [exact Ec|reflexivity].
        - destruct (Mem s (r :: l)) as (x & Hx & Ex); [rewrite HC by assumption; now apply Hd|]. intros K.
          destruct Hx as [->|Hx]; [congruence|]. specialize (F1 x Hx). apply F1. destruct (CompareRows_total x r) as [c Ec]. pose proof (CompareRows_antisym _ _ _ Ex) as Ex'.
          destruct (rows_trans x s r _ _ _ (I1 _ (or_intror Hx)) Hs Hr Ex' K Ec) as (_ & T & _). rewrite T in Ec; [exact Ec|reflexivity]. }
      constructor; [exact E|]. apply IH; [intros z K; apply I1; now right|intros z K; apply I2; now right|exact S1|exact S2|].
      intros x Hx. specialize (HC x Hx). unfold count in *. cbn [filter] in HC. rewrite (eqv_same x r s Hx Hr Hs E) in HC. destruct (eqv x s); cbn [length] in HC; lia.
  Qed.
End Order.

Lemma loop_equal l : forall l', length l = length l' -> (rowsEqualLoop l l' = Some true <-> Forall2 (fun r s => CompareRows r s = Some Eq) l l').
Proof.
  induction l as [|r l IH]; intros [|s l'] E; cbn [rowsEqualLoop]; try discriminate E.
  - split; [constructor|reflexivity].
  - injection E as E. destruct (CompareRows r s) as [[]|] eqn:C; split; try discriminate; try (inversion 1; congruence).
    + intros H. constructor; [exact C|]. now apply IH.
    + inversion 1; subst. now apply IH.
Qed.
Lemma loop_total l : forall l', exists b, rowsEqualLoop l l' = Some b.
Proof.
  induction l as [|r l IH]; intros [|s l']; cbn [rowsEqualLoop]; try (now eexists). destruct (CompareRows_total r s) as [c ->]. destruct c; [apply IH|now eexists..].
Qed.
Lemma RowsEqual_total {S : SortLib} l l' u : exists b, RowsEqual l l' u = Some b.
Proof. unfold RowsEqual. destruct (negb _); [now eexists|]. destruct u; apply loop_total. Qed.

Lemma Forall2_same l l' : comparable (l ++ l') -> (Forall2 (fun r s => CompareRows r s = Some Eq) l l' <-> Forall2 same_row l l').
Proof.
  intros [P U]. assert (H : forall r s, In r l -> In s l' -> (CompareRows r s = Some Eq <-> same_row r s)).
  { intros r s Hr Hs. rewrite Forall_forall in P. apply CompareRows_eq; [apply P|apply P|apply U]; apply in_or_app; auto. }
  clear P U. split; intros F; (induction F as [|r s l l' E F IH]; [constructor|]; constructor; [apply H; [now left|now left|exact E]|apply IH; intros; apply H; now right]).
Qed.

Lemma Forall2_len {A B} (R : A -> B -> Prop) l l' : Forall2 R l l' -> length l = length l'.
Proof. induction 1; cbn; congruence. Qed.

Lemma equal_ordered {S : SortLib} l l' : comparable (l ++ l') -> (RowsEqual l l' false = Some true <-> Forall2 same_row l l').
Proof.
  intros C. unfold RowsEqual, zlen. destruct (Z.of_nat (length l) =? Z.of_nat (length l')) eqn:E; cbn [negb].
  - apply Z.eqb_eq, Nat2Z.inj in E. rewrite (loop_equal l l' E). now apply Forall2_same.
  - split; [discriminate|]. intros F. apply Forall2_len in F. apply Z.eqb_neq in E. now rewrite F in E.
Qed.

Lemma comparable_incl l l' : incl l' l -> comparable l -> comparable l'.
Proof.
  intros H [P U]. split; [|auto]. rewrite Forall_forall in *. auto.
Qed.

Lemma equal_unordered {S : SortLib} (HS : SortLib_ok S) l l' : comparable (l ++ l') ->
  (RowsEqual l l' true = Some true <-> exists m, Permutation l' m /\ Forall2 same_row l m).
Proof.
  intros C. destruct (HS l) as [P1 S1], (HS l') as [P2 S2].
  specialize (S1 (comparable_order l (comparable_incl _ _ (incl_appl _ (incl_refl _)) C))). specialize (S2 (comparable_order l' (comparable_incl _ _ (incl_appr _ (incl_refl _)) C))).
  assert (I1 : incl (x_sort l) (l ++ l')) by (intros x K; apply in_or_app; left; eapply Permutation_in; [apply Permutation_sym, P1|exact K]).
  assert (I2 : incl (x_sort l') (l ++ l')) by (intros x K; apply in_or_app; right; eapply Permutation_in; [apply Permutation_sym, P2|exact K]).
  unfold RowsEqual, zlen. destruct (Z.of_nat (length l) =? Z.of_nat (length l')) eqn:E; cbn [negb].
  - apply Z.eqb_eq, Nat2Z.inj in E. rewrite loop_equal by (now rewrite <- (Permutation_length P1), <- (Permutation_length P2)). split.
    + intros F. destruct (Permutation_Forall2 (Permutation_sym P1) F) as (m & PM & FM). exists m. split; [eapply Permutation_trans; [exact P2|exact PM]|].
      apply Forall2_same; [|exact FM]. apply (comparable_incl (l ++ l')); [|exact C]. intros x K. apply in_app_or in K as [K|K]; [now apply in_or_app; left|].
      apply I2. eapply Permutation_in; [apply Permutation_sym, PM|exact K].
    + intros (m & PM & FM). assert (IM : incl m (l ++ l')) by (intros x K; apply in_or_app; right; eapply Permutation_in; [apply Permutation_sym, PM|exact K]).
      apply (sorted_equal (l ++ l') C); try assumption. intros x Hx. rewrite <- (count_perm x _ _ P1), <- (count_perm x _ _ P2), (count_perm x _ _ PM).
      apply (count_equal (l ++ l') C); try assumption; [now apply incl_appl, incl_refl|]. apply Forall2_same; [|exact FM].
      apply (comparable_incl (l ++ l')); [|exact C]. intros y K. apply in_app_or in K as [K|K]; [now apply in_or_app; left|now apply IM].
  - split; [discriminate|]. intros (m & PM & FM). apply Forall2_len in FM. apply Permutation_length in PM. apply Z.eqb_neq in E. now rewrite FM, PM in E.
Qed.

(** What the caller is left with. *)
Lemma equal_leaves {S : SortLib} (HS : SortLib_ok S) l l' u m m' : RowsEqualLeaves l l' u = (m, m') ->
  Permutation l m /\ Permutation l' m' /\ RowsEqual m m' false = RowsEqual l l' u /\
  (u = false \/ length l <> length l' -> m = l /\ m' = l') /\
  (u = true -> length l = length l' ->
   (comparable l -> StronglySorted (fun r1 r2 => CompareRows r2 r1 <> Some Lt) m) /\
   (comparable l' -> StronglySorted (fun r1 r2 => CompareRows r2 r1 <> Some Lt) m')).
Proof.
  destruct (HS l) as [P1 S1], (HS l') as [P2 S2]. unfold RowsEqualLeaves, RowsEqual, zlen.
  destruct (Z.of_nat (length l) =? Z.of_nat (length l')) eqn:E; cbn [negb].
  - pose proof E as N. apply Z.eqb_eq, Nat2Z.inj in N. destruct u; intros [= <- <-].
    + split; [exact P1|]. split; [exact P2|]. split; [now rewrite <- (Permutation_length P1), <- (Permutation_length P2), E|].
      split; [intros [K|K]; [discriminate K|now contradiction K]|]. intros _ _. split; intros C; [apply S1|apply S2]; now apply comparable_order.
    + rewrite E. repeat split; try apply Permutation_refl; discriminate.
  - pose proof E as N. apply Z.eqb_neq in N. intros [= <- <-]. rewrite E. repeat split; try apply Permutation_refl; exfalso; apply N; now f_equal.
Qed.
