(** The scanner read as a function on lists of runes. *)

From Verif Require Import ModelScanner SpecScanner LemmasBase LemmasValue.

(** ** Buffers *)

Definition buffer_ok (b : buffer) : Prop := (b_len b <= length (b_arr b))%nat.

Lemma b_grow_ok {B : BufLib} b n : buffer_ok b ->
  buffer_ok (b_grow b n) /\ b_string (b_grow b n) = b_string b /\ (b_len (b_grow b n) + n <= length (b_arr (b_grow b n)))%nat /\
  b_len (b_grow b n) = b_len b.
Proof.
  unfold buffer_ok, b_grow, b_string. intros H. destruct (Nat.leb_spec (b_len b + n) (length (b_arr b))) as [E|E].
  - repeat split; auto.
  - cbn [b_len b_arr]. rewrite app_length, firstn_length, repeat_length, Nat.min_l by lia.
    set (cap := match b_arr b with [] => _ | _ => _ end).
    assert (Hc : (b_len b + n <= cap)%nat).
    { subst cap. destruct (b_arr b) as [|x a] eqn:A; [|cbn zeta; lia]. cbn [length] in H. lia. }
    repeat split; try lia.
    rewrite firstn_app, firstn_firstn, firstn_length, Nat.min_id, Nat.min_l by lia. rewrite Nat.sub_diag. cbn [firstn]. apply app_nil_r.
Qed.

Lemma b_put_ok b w : (b_len b + length w <= length (b_arr b))%nat ->
  buffer_ok (b_put b w) /\ b_string (b_put b w) = b_string b ++ w.
Proof.
  unfold buffer_ok, b_put, b_string. cbn [b_len b_arr]. intros H.
  rewrite !app_length, firstn_length, skipn_length, Nat.min_l by lia. split; [lia|].
  rewrite app_assoc, firstn_app. rewrite app_length, firstn_length, Nat.min_l by lia. rewrite Nat.sub_diag. cbn [firstn]. rewrite app_nil_r.
  rewrite firstn_all2; [reflexivity|]. rewrite app_length, firstn_length. lia.
Qed.

Lemma utf8_encode_length r : (1 <= length (utf8_encode r) <= 4)%nat.
Proof. unfold utf8_encode. repeat match goal with |- context [if ?b then _ else _] => destruct b end; cbn; lia. Qed.

Lemma utf8_ascii r : 0 <= r < 128 -> utf8_encode r = [zb r].
Proof.
  intros H. unfold utf8_encode. destruct (Z.ltb_spec r 0); [lia|]. destruct (Z.ltb_spec 1114111 r); [lia|].
  destruct (Z.leb_spec 55296 r); [lia|]. cbn [orb andb]. destruct (Z.ltb_spec r 128); [reflexivity|lia].
Qed.

Lemma b_writeByte_ok {B : BufLib} b x : buffer_ok b ->
  buffer_ok (b_writeByte b x) /\ b_string (b_writeByte b x) = b_string b ++ [x].
Proof.
  intros H. unfold b_writeByte. destruct (b_grow_ok b 1 H) as (H1 & H2 & H3 & H4).
  destruct (b_put_ok (b_grow b 1) [x]) as [H5 H6]; [cbn; lia|]. split; [exact H5|]. now rewrite H6, H2.
Qed.

Lemma b_writeRune_ok {B : BufLib} b r : buffer_ok b ->
  buffer_ok (b_writeRune b r) /\ b_string (b_writeRune b r) = b_string b ++ utf8_encode r.
Proof.
  intros H. unfold b_writeRune. destruct (Z.leb_spec 0 r) as [G|G]; [destruct (Z.ltb_spec r 128) as [K|K]|]; cbn [andb].
  - rewrite utf8_ascii by lia. now apply b_writeByte_ok.
  - destruct (b_grow_ok b 4 H) as (H1 & H2 & H3 & H4). pose proof (utf8_encode_length r).
    destruct (b_put_ok (b_grow b 4) (utf8_encode r)) as [H5 H6]; [lia|]. split; [exact H5|]. now rewrite H6, H2.
  - destruct (b_grow_ok b 4 H) as (H1 & H2 & H3 & H4). pose proof (utf8_encode_length r).
    destruct (b_put_ok (b_grow b 4) (utf8_encode r)) as [H5 H6]; [lia|]. split; [exact H5|]. now rewrite H6, H2.
Qed.

Lemma b_look_bytes b : b_look b (b_bytes b) = b_string b.
Proof. unfold b_look, b_bytes, b_string. cbn [sl_len sl_array]. now rewrite nth_middle. Qed.

Lemma b_reset_ok b : buffer_ok b -> buffer_ok (b_reset b) /\ b_string (b_reset b) = [].
Proof. unfold buffer_ok, b_string, b_reset. cbn. split; [lia|reflexivity]. Qed.

(** ** The scanner as a text still to read, a text written and a table *)

Definition sane (s : scanner) : Prop :=
  Forall (fun r => 0 <= r) (s_in s) /\ buffer_ok (s_buffer s) /\
  (s_unread s = true -> s_read s < 0 -> s_read s = -1 /\ s_in s = []).

Definition at_ (s : scanner) (l : list Z) (u : bytes) (t : idtable) : Prop :=
  sane s /\ rest s = l /\ b_string (s_buffer s) = u /\ s_ids s = t.

Lemma read_cons s r l u t : at_ s (r :: l) u t ->
  exists s', readRune s = (r, s') /\ at_ s' l u t /\ at_ (unreadRune s') (r :: l) u t /\ 0 <= r.
Proof.
  intros ((S1 & S2 & S3) & R & W & T). unfold rest in R. unfold readRune.
  destruct (s_unread s) eqn:E.
  - destruct (Z.ltb_spec (s_read s) 0) as [N|N].
    + destruct (S3 eq_refl N) as [_ N2]. rewrite N2 in R. discriminate.
    + cbn [app] in R. injection R as R1 R2. eexists. rewrite R1. split; [reflexivity|].
      unfold at_, sane, rest, unreadRune; cbn [s_in s_unread s_read s_buffer s_ids]. rewrite R1 in N.
      destruct (Z.ltb_spec r 0); [lia|]. repeat split; auto; try discriminate; try lia. cbn. now rewrite R2.
  - cbn [app] in R. rewrite R in *. eexists. split; [reflexivity|]. inversion S1 as [|? ? F1 F2]; subst.
    unfold at_, sane, rest, unreadRune; cbn [s_in s_unread s_read s_buffer s_ids].
    destruct (Z.ltb_spec r 0); [lia|]. repeat split; auto; try discriminate; try lia.
Qed.

Lemma read_nil s u t : at_ s [] u t ->
  exists s', readRune s = (-1, s') /\ at_ s' [] u t /\ at_ (unreadRune s') [] u t.
Proof.
  intros ((S1 & S2 & S3) & R & W & T). unfold rest in R. unfold readRune.
  destruct (s_unread s) eqn:E.
  - destruct (Z.ltb_spec (s_read s) 0) as [N|N]; [|discriminate].
    destruct (S3 eq_refl N) as [N1 N2]. eexists. rewrite N1. split; [reflexivity|].
    unfold at_, sane, rest, unreadRune; cbn [s_in s_unread s_read s_buffer s_ids].
    repeat split; auto; try discriminate.
  - cbn [app] in R. rewrite R in *. eexists. split; [reflexivity|].
    unfold at_, sane, rest, unreadRune; cbn [s_in s_unread s_read s_buffer s_ids].
    repeat split; auto; try discriminate.
Qed.

Lemma at_write {B : BufLib} s l u t r : at_ s l u t -> at_ (writeRune s r) l (u ++ utf8_encode r) t.
Proof.
  intros ((S1 & S2 & S3) & R & W & T). destruct (b_writeRune_ok (s_buffer s) r S2) as [H1 H2].
  unfold at_, sane, writeRune, rest, set_buffer; cbn [s_in s_unread s_read s_buffer s_ids]. rewrite H2, W. repeat split; auto; now apply S3.
Qed.

Lemma at_writeByte {B : BufLib} s l u t x : at_ s l u t -> at_ (writeByte s x) l (u ++ [x]) t.
Proof.
  intros ((S1 & S2 & S3) & R & W & T). destruct (b_writeByte_ok (s_buffer s) x S2) as [H1 H2].
  unfold at_, sane, writeByte, rest, set_buffer; cbn [s_in s_unread s_read s_buffer s_ids]. rewrite H2, W. repeat split; auto; now apply S3.
Qed.

Lemma at_ids s l u t t' : at_ s l u t -> at_ (set_ids s t') l u t'.
Proof.
  intros ((S1 & S2 & S3) & R & W & T). unfold at_, sane, rest, set_ids; cbn [s_in s_unread s_read s_buffer s_ids].
  repeat split; auto; now apply S3.
Qed.

Lemma at_reset s l u t : at_ s l u t -> at_ (set_buffer s (b_reset (s_buffer s))) l [] t.
Proof.
  intros ((S1 & S2 & S3) & R & W & T). destruct (b_reset_ok _ S2).
  unfold at_, sane, rest, set_buffer; cbn [s_in s_unread s_read s_buffer s_ids].
  repeat split; auto; now apply S3.
Qed.

Lemma at_self s : sane s -> at_ s (rest s) (b_string (s_buffer s)) (s_ids s).
Proof. intros H. now repeat split; try apply H. Qed.

Lemma at_sane s l u t : at_ s l u t -> sane s.
Proof. now intros []. Qed.

(** Reading with the head or the end of the file. *)
Definition hd_rune (l : list Z) : Z := match l with [] => -1 | r :: _ => r end.

Lemma read_any s l u t : at_ s l u t ->
  exists s', readRune s = (hd_rune l, s') /\ at_ s' (tl l) u t /\ at_ (unreadRune s') l u t /\ -1 <= hd_rune l /\ (hd_rune l = -1 -> l = []).
Proof.
  intros H. destruct l as [|r l].
  - destruct (read_nil _ _ _ H) as (s' & H1 & H2 & H3). exists s'. cbn. split; [exact H1|]. split; [exact H2|]. split; [exact H3|]. split; [lia|reflexivity].
  - destruct (read_cons _ _ _ _ _ H) as (s' & H1 & H2 & H3 & H4). exists s'. cbn. split; [exact H1|]. split; [exact H2|]. split; [exact H3|]. split; [lia|]. intros ->. lia.
Qed.

Definition suffix (l' l : list Z) : Prop := exists w, l = w ++ l'.
Lemma suffix_refl l : suffix l l. Proof. now exists []. Qed.
Lemma suffix_trans a b c : suffix a b -> suffix b c -> suffix a c.
Proof. intros [w ->] [v ->]. exists (v ++ w). apply app_assoc. Qed.
Lemma suffix_tl l : suffix (tl l) l. Proof. destruct l as [|r l]; [now exists []|now exists [r]]. Qed.
Lemma suffix_cons r l' l : suffix l' l -> suffix l' (r :: l). Proof. intros [w ->]. now exists (r :: w). Qed.
Lemma suffix_app w l' l : suffix l' l -> suffix l' (w ++ l). Proof. intros [v ->]. exists (w ++ v). now rewrite app_assoc. Qed.
Lemma suffix_length l' l : suffix l' l -> (length l' <= length l)%nat. Proof. intros [w ->]. rewrite app_length. lia. Qed.

(** ** Maximal runs *)

Fixpoint span (p : Z -> bool) (l : list Z) : list Z * list Z :=
  match l with
  | [] => ([], [])
  | r :: l' => if p r then let '(a, b) := span p l' in (r :: a, b) else ([], l)
  end.

Lemma span_spec p l : l = fst (span p l) ++ snd (span p l) /\ Forall (fun r => p r = true) (fst (span p l)) /\
  no_start (fun r => p r = true) (snd (span p l)).
Proof.
  induction l as [|r l IH]; cbn [span]; [repeat split; constructor|].
  destruct (p r) eqn:E.
  - destruct (span p l) as [a b]. cbn [fst snd] in *. destruct IH as (I1 & I2 & I3). repeat split; auto. cbn. now rewrite I1.
  - cbn [fst snd]. repeat split; auto. cbn. congruence.
Qed.

Lemma span_app p w f : Forall (fun r => p r = true) w -> no_start (fun r => p r = true) f -> span p (w ++ f) = (w, f).
Proof.
  intros Hw Hf. induction Hw as [|r w Hr Hw IH]; cbn [app span].
  - destruct f as [|x f]; cbn [span]; [reflexivity|]. cbn in Hf. destruct (p x); [now elim Hf|reflexivity].
  - now rewrite Hr, IH.
Qed.

Lemma span_length p l : (length (snd (span p l)) <= length l)%nat.
Proof. destruct (span_spec p l) as [H _]. rewrite H at 2. rewrite app_length. lia. Qed.

Lemma encode_cons r w : encode (r :: w) = utf8_encode r ++ encode w. Proof. reflexivity. Qed.
Lemma encode_app w v : encode (w ++ v) = encode w ++ encode v. Proof. apply flat_map_app. Qed.

Section Loops.
  Context {X : FloatLib} {L : CaseLib} {U : RuneLib} {B : BufLib}.
  Context (HU : RuneLib_scan U).

  Definition name_runeb (r : Z) : bool := x_is_letter r || x_is_digit r || (r =? 95) || (r =? 36).

  Lemma name_runeb_spec r : name_runeb r = true <-> name_rune r.
  Proof.
    unfold name_runeb, name_rune. rewrite !Bool.orb_true_iff, !Z.eqb_eq. tauto.
  Qed.

  Lemma letter_neg r : r < 0 -> x_is_letter r = false.
  Proof. intros H. destruct (x_is_letter r) eqn:E; [|reflexivity]. destruct HU as (_ & H1 & _). specialize (H1 r (or_introl E)). lia. Qed.
  Lemma digit_neg r : r < 0 -> x_is_digit r = false.
  Proof. intros H. destruct (x_is_digit r) eqn:E; [|reflexivity]. destruct HU as (_ & H1 & _). specialize (H1 r (or_intror (or_introl E))). lia. Qed.
  Lemma space_neg r : r < 0 -> x_is_space r = false.
  Proof. intros H. destruct (x_is_space r) eqn:E; [|reflexivity]. destruct HU as (_ & H1 & _). specialize (H1 r (or_intror (or_intror E))). lia. Qed.

  Lemma identifierLoop_spec fuel : forall s r l u t, (length l < fuel)%nat -> at_ s l u t ->
    exists s', identifierLoop fuel s r = Some s' /\ at_ s' (snd (span name_runeb l)) (u ++ encode (r :: fst (span name_runeb l))) t.
  Proof.
    induction fuel as [|fuel IH]; intros s r l u t Hf H; [lia|]. cbn [identifierLoop].
    apply (at_write _ _ _ _ r) in H. destruct l as [|x l].
    - destruct (read_nil _ _ _ H) as (s' & E & H1 & _). rewrite E. cbn [Z.eqb Pos.eqb]. exists s'. split; [reflexivity|].
      cbn [span fst snd]. unfold encode. cbn [flat_map]. now rewrite app_nil_r.
    - destruct (read_cons _ _ _ _ _ H) as (s' & E & H1 & H2 & Hx). rewrite E. destruct (Z.eqb_spec x (-1)); [lia|].
      assert (N : negb (x_is_letter x) && negb (x_is_digit x) && negb (x =? 95) && negb (x =? 36) = negb (name_runeb x)).
      { unfold name_runeb. now rewrite !Bool.negb_orb. }
      rewrite N. cbn [span]. destruct (name_runeb x); cbn [negb].
      + cbn [length] in Hf. destruct (IH s' x l _ t ltac:(lia) H1) as (s2 & E2 & H3). exists s2. split; [exact E2|].
        destruct (span name_runeb l) as [a b]. cbn [fst snd] in *. rewrite encode_cons, app_assoc. exact H3.
      + exists (unreadRune s'). split; [reflexivity|]. cbn [fst snd]. unfold encode. cbn [flat_map]. now rewrite app_nil_r.
  Qed.

  Lemma parameterLoop_spec fuel : forall s r l u t, (length l < fuel)%nat -> at_ s l u t ->
    exists s', parameterLoop fuel s r = Some s' /\ at_ s' (snd (span x_is_digit l)) (u ++ encode (r :: fst (span x_is_digit l))) t.
  Proof.
    induction fuel as [|fuel IH]; intros s r l u t Hf H; [lia|]. cbn [parameterLoop].
    apply (at_write _ _ _ _ r) in H. destruct l as [|x l].
    - destruct (read_nil _ _ _ H) as (s' & E & H1 & _). rewrite E. cbn [Z.eqb Pos.eqb]. exists s'. split; [reflexivity|].
      cbn [span fst snd]. unfold encode. cbn [flat_map]. now rewrite app_nil_r.
    - destruct (read_cons _ _ _ _ _ H) as (s' & E & H1 & H2 & Hx). rewrite E. destruct (Z.eqb_spec x (-1)); [lia|].
      cbn [span]. destruct (x_is_digit x); cbn [negb].
      + cbn [length] in Hf. destruct (IH s' x l _ t ltac:(lia) H1) as (s2 & E2 & H3). exists s2. split; [exact E2|].
        destruct (span x_is_digit l) as [a b]. cbn [fst snd] in *. rewrite encode_cons, app_assoc. exact H3.
      + exists (unreadRune s'). split; [reflexivity|]. cbn [fst snd]. unfold encode. cbn [flat_map]. now rewrite app_nil_r.
  Qed.

  (** The digits of a number, a point and more digits. *)
  Definition number_span (dbl : bool) (l : list Z) : list Z * list Z * bool :=
    let '(a, b) := span x_is_digit l in
    if dbl then (a, b, true)
    else match b with
         | 46 :: b' => let '(c, d) := span x_is_digit b' in (a ++ 46 :: c, d, true)
         | _ => (a, b, false)
         end.

  Lemma digit_dot : x_is_digit 46 = false.
  Proof. destruct (x_is_digit 46) eqn:E; [|reflexivity]. destruct HU as (H1 & _). destruct (H1 46 ltac:(lia)) as (_ & [H2 _] & _). specialize (H2 E). lia. Qed.

  Lemma number_span_digit dbl x l : x_is_digit x = true ->
    number_span dbl (x :: l) = (let '(a, b, d) := number_span dbl l in (x :: a, b, d)).
  Proof.
    intros H. unfold number_span. cbn [span]. rewrite H. destruct (span x_is_digit l) as [a b].
    destruct dbl; [reflexivity|]. destruct b as [|y b]; [reflexivity|].
    destruct (Z.eq_dec y 46) as [->|N].
    - destruct (span x_is_digit b) as [c d]. reflexivity.
    - destruct y as [|p|p]; try reflexivity. do 6 (destruct p as [p|p|]; try reflexivity). now elim N.
  Qed.

  Lemma number_span_other dbl x l : x_is_digit x = false -> (dbl = false -> x <> 46) -> number_span dbl (x :: l) = ([], x :: l, dbl).
  Proof.
    intros H N. unfold number_span. cbn [span]. rewrite H. destruct dbl; [reflexivity|]. specialize (N eq_refl).
    destruct x as [|p|p]; try reflexivity. do 6 (destruct p as [p|p|]; try reflexivity). now elim N.
  Qed.

  Lemma numberLoop_spec fuel : forall s dbl r l u t, (length l < fuel)%nat -> at_ s l u t ->
    let '(a, b, d) := number_span dbl l in
    exists s', numberLoop fuel s dbl r = Some (s', d) /\ at_ s' b (u ++ encode (r :: a)) t.
  Proof.
    induction fuel as [|fuel IH]; intros s dbl r l u t Hf H; [lia|]. cbn [numberLoop].
    apply (at_write _ _ _ _ r) in H. destruct l as [|x l].
    - destruct (read_nil _ _ _ H) as (s' & E & H1 & _). rewrite E. cbn [Z.eqb Pos.eqb].
      assert (N : number_span dbl [] = ([], [], dbl)) by now destruct dbl. rewrite N.
      exists s'. split; [reflexivity|]. unfold encode. cbn [flat_map]. now rewrite app_nil_r.
    - destruct (read_cons _ _ _ _ _ H) as (s' & E & H1 & H2 & Hx). rewrite E. destruct (Z.eqb_spec x (-1)); [lia|].
      cbn [length] in Hf.
      destruct (negb dbl && (x =? 46)) eqn:D.
      + apply andb_prop in D. destruct D as [D1 D2]. apply Z.eqb_eq in D2. subst x. destruct dbl; [discriminate|].
        specialize (IH s' true 46 l _ t ltac:(lia) H1).
        unfold number_span in *. cbn [span]. rewrite digit_dot. destruct (span x_is_digit l) as [a b]. cbn [app].
        destruct IH as (s2 & E2 & H3). exists s2. split; [exact E2|]. rewrite encode_cons, app_assoc. exact H3.
      + destruct (x_is_digit x) eqn:G; cbn [negb].
        * specialize (IH s' dbl x l _ t ltac:(lia) H1). rewrite number_span_digit by exact G.
          destruct (number_span dbl l) as [[a b] d]. destruct IH as (s2 & E2 & H3). exists s2. split; [exact E2|].
          rewrite encode_cons, app_assoc. exact H3.
        * rewrite number_span_other; [|exact G|].
          -- exists (unreadRune s'). split; [reflexivity|]. unfold encode. cbn [flat_map]. now rewrite app_nil_r.
          -- intros ->. cbn [negb andb] in D. now apply Z.eqb_neq in D.
  Qed.

  Lemma quotedIdentifierLoop_spec fuel : forall s delim l u t, (length l < fuel)%nat -> at_ s l u t ->
    exists s', at_ s' (tl (snd (span (fun r => negb (r =? delim)) l))) (u ++ encode (fst (span (fun r => negb (r =? delim)) l))) t /\
      quotedIdentifierLoop fuel s delim = Some (s', match snd (span (fun r => negb (r =? delim)) l) with [] => false | _ => true end).
  Proof.
    induction fuel as [|fuel IH]; intros s delim l u t Hf H; [lia|]. cbn [quotedIdentifierLoop].
    destruct l as [|x l].
    - destruct (read_nil _ _ _ H) as (s' & E & H1 & _). rewrite E. cbn [Z.eqb Pos.eqb span fst snd tl]. exists s'.
      split; [|reflexivity]. now rewrite app_nil_r.
    - destruct (read_cons _ _ _ _ _ H) as (s' & E & H1 & H2 & Hx). rewrite E. destruct (Z.eqb_spec x (-1)); [lia|].
      cbn [length] in Hf. cbn [span]. destruct (x =? delim) eqn:D; cbn [negb].
      + exists s'. cbn [fst snd tl]. split; [|reflexivity]. now rewrite app_nil_r.
      + apply (at_write _ _ _ _ x) in H1. destruct (IH _ delim l _ t ltac:(lia) H1) as (s2 & H3 & E2). exists s2.
        destruct (span _ l) as [a b]. cbn [fst snd] in *. split; [|exact E2]. rewrite encode_cons, app_assoc. exact H3.
  Qed.

  Lemma skipWhitespace_spec fuel : forall s l u t, (length l < fuel)%nat -> at_ s l u t ->
    exists s', skipWhitespace fuel s = Some (hd_rune (snd (span x_is_space l)), s') /\
      at_ s' (tl (snd (span x_is_space l))) u t.
  Proof.
    induction fuel as [|fuel IH]; intros s l u t Hf H; [lia|]. cbn [skipWhitespace].
    destruct l as [|x l].
    - destruct (read_nil _ _ _ H) as (s' & E & H1 & _). rewrite E. cbn. now exists s'.
    - destruct (read_cons _ _ _ _ _ H) as (s' & E & H1 & H2 & Hx). rewrite E. destruct (Z.ltb_spec x 0); [lia|].
      cbn [length] in Hf. cbn [span orb]. destruct (x_is_space x); cbn [negb].
      + destruct (IH _ l _ t ltac:(lia) H1) as (s2 & E2 & H3). exists s2.
        destruct (span _ l) as [a b]. cbn [fst snd] in *. now split.
      + exists s'. cbn [fst snd tl hd_rune]. now split.
  Qed.

  Lemma quoteSpace_spec fuel : forall s r nl l u t, (length l < fuel)%nat -> at_ s (tl l) u t -> at_ (unreadRune s) l u t -> r = hd_rune l ->
    exists s', quoteSpace fuel s r nl = Some (s', hd_rune (snd (span x_is_space l)),
         nl || existsb (fun x => (x =? 10) || (x =? 13)) (fst (span x_is_space l))) /\
      at_ s' (tl (snd (span x_is_space l))) u t /\ at_ (unreadRune s') (snd (span x_is_space l)) u t.
  Proof.
    induction fuel as [|fuel IH]; intros s r nl l u t Hf H H' ->; [lia|]. cbn [quoteSpace].
    destruct l as [|x l].
    - cbn [hd_rune span fst snd existsb tl] in *. rewrite space_neg by lia. rewrite Bool.orb_false_r. exists s. split; [reflexivity|]. now split.
    - cbn [hd_rune tl span length] in *. destruct (x_is_space x) eqn:E.
      + destruct (read_any _ _ _ _ H) as (s' & R & H1 & H2 & _). rewrite R.
        destruct (IH s' (hd_rune l) (if (x =? 10) || (x =? 13) then true else nl) l u t ltac:(lia) H1 H2 eq_refl) as (s2 & E2 & H3 & H4).
        exists s2. destruct (span x_is_space l) as [a b]. cbn [fst snd existsb] in *. split; [|now split].
        rewrite E2. f_equal. f_equal. destruct nl, ((x =? 10) || (x =? 13)); reflexivity.
      + exists s. cbn [fst snd existsb hd_rune tl]. rewrite Bool.orb_false_r. split; [reflexivity|]. now split.
  Qed.

  (** ** Hexadecimal and octal digits *)

  Definition hexval (r : Z) : option Z :=
    if (48 <=? r) && (r <=? 57) then Some (r - 48)
    else if (65 <=? r) && (r <=? 70) then Some (r - 65 + 10)
    else if (97 <=? r) && (r <=? 102) then Some (r - 97 + 10)
    else None.

  Lemma hexval_spec r d : hexval r = Some d <-> hex_digit r d.
  Proof.
    unfold hexval. destruct (Z.leb_spec 48 r), (Z.leb_spec r 57), (Z.leb_spec 65 r), (Z.leb_spec r 70), (Z.leb_spec 97 r), (Z.leb_spec r 102); cbn [andb];
      try lia; (split; [intros [= <-] || discriminate|intros H'; inversion H'; subst; try lia; try (f_equal; lia)]).
    all: try (replace r with (48 + (r - 48)) at 1 by lia; constructor; lia).
    all: try (replace r with (55 + (r - 65 + 10)) at 1 by lia; apply hd_upper; lia).
    all: try (replace r with (87 + (r - 97 + 10)) at 1 by lia; apply hd_lower; lia).
  Qed.

  Lemma hexval_range r d : hexval r = Some d -> 0 <= d <= 15.
  Proof. rewrite hexval_spec. intros H; inversion H; lia. Qed.

  Lemma hex_digit_some s c r l u t d : at_ s (r :: l) u t -> hexval r = Some d ->
    exists s', scanHexDigit s c = (s', c, Some d) /\ at_ s' l u t.
  Proof.
    intros H E. destruct (read_cons _ _ _ _ _ H) as (s' & R & H1 & _). unfold scanHexDigit. rewrite R. unfold hexval in E.
    exists s'. split; [|exact H1].
    destruct ((48 <=? r) && (r <=? 57)); [now injection E as <-|]. destruct ((65 <=? r) && (r <=? 70)); [now injection E as <-|].
    destruct ((97 <=? r) && (r <=? 102)); [now injection E as <-|discriminate].
  Qed.

  Lemma hex_digit_none s c l u t : at_ s l u t -> match l with [] => True | r :: _ => hexval r = None end ->
    exists s', scanHexDigit s c = (s', set_error c SHexDigit, None) /\ at_ s' (tl l) u t.
  Proof.
    intros H E. destruct (read_any _ _ _ _ H) as (s' & R & H1 & _ & Hp & _). unfold scanHexDigit. rewrite R. exists s'. split; [|exact H1].
    destruct l as [|r l]; [reflexivity|]. cbn [hd_rune] in *. unfold hexval in E.
    destruct ((48 <=? r) && (r <=? 57)); [discriminate|]. destruct ((65 <=? r) && (r <=? 70)); [discriminate|].
    destruct ((97 <=? r) && (r <=? 102)); [discriminate|]. destruct (Z.eqb_spec r (-3)); [lia|reflexivity].
  Qed.

  Lemma hex_digit_any s c l u t : at_ s l u t ->
    exists s', at_ s' (tl l) u t /\
      ((exists r l' d, l = r :: l' /\ hexval r = Some d /\ scanHexDigit s c = (s', c, Some d)) \/ scanHexDigit s c = (s', set_error c SHexDigit, None)).
  Proof.
    intros H. destruct l as [|r l].
    - destruct (hex_digit_none s c [] u t H Logic.I) as (s' & E & H1). exists s'. now split; [|right].
    - destruct (hexval r) as [d|] eqn:E.
      + destruct (hex_digit_some s c r l u t d H E) as (s' & E' & H1). exists s'. split; [exact H1|]. left. now exists r, l, d.
      + destruct (hex_digit_none s c (r :: l) u t H E) as (s' & E' & H1). exists s'. now split; [|right].
  Qed.

  Lemma unicodeLoop_some w u : hex_number w u -> forall s c l b t a, at_ s (w ++ l) b t ->
    exists s', unicodeLoop (length w) s c a = (s', c, Some (a * 16 ^ zlen w + u)) /\ at_ s' l b t.
  Proof.
    assert (G : forall w s c l b t a, Forall (fun r => hexval r <> None) w -> at_ s (w ++ l) b t ->
      exists s', unicodeLoop (length w) s c a = (s', c, Some (fold_left (fun a r => a * 16 + match hexval r with Some d => d | None => 0 end) w a)) /\ at_ s' l b t).
    { clear w u. induction w as [|r w IH]; intros s c l b t a F H; cbn [length unicodeLoop fold_left].
      - now exists s.
      - inversion F as [|? ? F1 F2]; subst. destruct (hexval r) as [d|] eqn:E; [|now elim F1].
        cbn [app] in H. destruct (hex_digit_some s c r _ b t d H E) as (s' & E' & H1). rewrite E'. apply IH; assumption. }
    intros Hn s c l b t a H.
    assert (K : Forall (fun r => hexval r <> None) w /\ forall a, fold_left (fun a r => a * 16 + match hexval r with Some d => d | None => 0 end) w a = a * 16 ^ zlen w + u).
    { clear H. induction Hn as [|w u r d Hn [IH1 IH2] Hd].
      - split; [constructor|]. intros x. cbn [fold_left]. change (16 ^ zlen []) with 1. lia.
      - apply hexval_spec in Hd. split.
        + apply Forall_app. split; [exact IH1|]. constructor; [congruence|constructor].
        + intros x. rewrite fold_left_app, IH2. cbn [fold_left]. rewrite Hd. unfold zlen. rewrite app_length, Nat2Z.inj_add. cbn [length].
          rewrite Z.pow_add_r by lia. change (16 ^ Z.of_nat 1) with 16. ring. }
    destruct K as [K1 K2]. rewrite <- K2. now apply G.
  Qed.

  Lemma unicodeLoop_any n : forall s c l b t w a, at_ s l b t -> hex_number w a ->
    exists s' l' c', at_ s' l' b t /\ suffix l' l /\
      (unicodeLoop n s c a = (s', c', None) \/
       exists v u, l = v ++ l' /\ length v = n /\ hex_number (w ++ v) u /\ unicodeLoop n s c a = (s', c, Some u)).
  Proof.
    induction n as [|n IH]; intros s c l b t w a H Hn; cbn [unicodeLoop].
    - exists s, l, c. split; [exact H|]. split; [apply suffix_refl|]. right. exists [], a. now rewrite app_nil_r.
    - destruct (hex_digit_any s c l b t H) as (s' & H1 & [(r & l' & d & -> & E & E')|E']); rewrite E'.
      + cbn [tl] in H1. destruct (IH s' c l' b t (w ++ [r]) (a * 16 + d) H1) as (s2 & l2 & c2 & H2 & S2 & D).
        { constructor; [exact Hn|]. now apply hexval_spec. }
        exists s2, l2, c2. split; [exact H2|]. split; [now apply suffix_cons|]. destruct D as [D|(v & u & -> & D1 & D2 & D3)].
        * now left.
        * right. exists (r :: v), u. split; [reflexivity|]. split; [cbn; now rewrite D1|]. split; [|exact D3]. now rewrite <- app_assoc in D2.
      + exists s', (tl l), (set_error c SHexDigit). split; [exact H1|]. split; [apply suffix_tl|]. now left.
  Qed.

  Lemma hex_number_range w u : hex_number w u -> 0 <= u < 16 ^ zlen w.
  Proof.
    induction 1 as [|w u r d H IH Hd]; [change (16 ^ zlen []) with 1; lia|]. assert (0 <= d <= 15) by (inversion Hd; lia).
    unfold zlen. rewrite app_length, Nat2Z.inj_add. cbn [length]. rewrite Z.pow_add_r by lia. change (16 ^ Z.of_nat 1) with 16.
    fold (zlen w). lia.
  Qed.

  Lemma hex_number_cons w u r d : hex_number (r :: w) u -> hex_digit r d -> exists v, hex_number w v /\ u = d * 16 ^ zlen w + v.
  Proof.
    revert u. induction w as [|x w IH] using rev_ind; intros u H Hd.
    - exists 0. split; [constructor|]. inversion H as [|w' u' r' d' H1 H2 E]; subst. destruct w' as [|y w']; [|destruct w'; discriminate].
      injection E as ->. inversion H1 as [E1|? ? ? ? ? ? E1]; subst; [|destruct w; discriminate].
      apply hexval_spec in Hd, H2. rewrite Hd in H2. injection H2 as ->. change (16 ^ zlen []) with 1. lia.
    - inversion H as [E|w' u' r' d' H1 H2 E]; subst. change (r :: w ++ [x]) with ((r :: w) ++ [x]) in E. apply app_inj_tail in E. destruct E as [-> ->].
      destruct (IH _ H1 Hd) as (v & V1 & ->). exists (v * 16 + d'). split; [now constructor|].
      unfold zlen. rewrite app_length, Nat2Z.inj_add. cbn [length]. rewrite Z.pow_add_r by lia. change (16 ^ Z.of_nat 1) with 16. ring.
  Qed.
End Loops.
