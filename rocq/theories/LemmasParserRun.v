(** The parser on its ring of three tokens does what it would do on a tape. *)

From Verif Require Import ModelParser SpecParser LemmasBase LemmasScanProps LemmasParserWp.

Section Run.
  Context {X : FloatLib} {L : CaseLib} {U : RuneLib} {B : BufLib} {P : PrintLib} (HU : RuneLib_scan U).
  Variable input : list Z.
  Variable bad : bool.
  Hypothesis Hbad : bad = false -> forall s, scanning input s -> ~ bad_escape (rest s).

  Notation ok_tok := (fun c => fine bad (tok_of c)).

  Definition mu (t : tape) : nat := left_over t.

  Lemma mu_eq t : mu t = (fold_right (fun c n => weight (tok_of c) + n) 0 (t_ahead t) + length (rest (t_scanner t)))%nat.
  Proof.
    unfold mu, left_over. f_equal. induction (t_ahead t) as [|c l IH]; [reflexivity|]. cbn. destruct (tok_of c); cbn; lia.
  Qed.

  Definition st (p : parser) (t : tape) : Prop :=
    on_tape p t /\ scanning input (t_scanner t) /\ Forall ok_tok (t_ahead t).

  Lemma tok_eof c : tok_of c = KEOF <-> c_token c = -1.
  Proof.
    unfold tok_of. split.
    - repeat match goal with |- (if ?a =? ?b then _ else _) = _ -> _ => destruct (Z.eqb_spec a b); [try discriminate; auto|] end. discriminate.
    - intros ->. reflexivity.
  Qed.
  Lemma tok_error c b : tok_of c = KError b -> c_token c = -3 /\ b = match c_error c with Some _ => true | None => false end.
  Proof.
    unfold tok_of. repeat match goal with |- (if ?a =? ?b then _ else _) = _ -> _ => destruct (Z.eqb_spec a b); [try discriminate; try (intros [= <-]; auto)|] end. discriminate.
  Qed.

  Lemma on_tape_tok p t : on_tape p t -> (length (t_ahead t) < 3)%nat -> p_tok p = t_tok t.
  Proof.
    intros (H1 & H2 & H3 & H4 & H5 & H6) H7. unfold p_tok, t_tok, p_sctx. f_equal. specialize (H6 (length (t_ahead t)) H7).
    rewrite H2 in H6. replace (p_current p + length (t_ahead t) + 3 - length (t_ahead t))%nat with (p_current p + 1 * 3)%nat in H6 by lia.
    rewrite Nat.mod_add, Nat.mod_small in H6 by lia. rewrite H6. rewrite app_nth2; rewrite rev_length; [|lia]. rewrite Nat.sub_diag. now destruct (t_past t).
  Qed.

  Lemma set_nth_length {A} n (a : A) l : length (set_nth n a l) = length l.
  Proof. revert n; induction l as [|x l IH]; intros [|n]; cbn; auto. Qed.
  Lemma set_nth_same {A} n (a d : A) l : (n < length l)%nat -> nth n (set_nth n a l) d = a.
  Proof. revert n; induction l as [|x l IH]; intros [|n] H; cbn in *; try lia; auto. apply IH; lia. Qed.
  Lemma set_nth_other {A} n k (a d : A) l : n <> k -> nth k (set_nth n a l) d = nth k l d.
  Proof. revert n k; induction l as [|x l IH]; intros [|n] [|k] H; cbn; auto; try congruence. Qed.

  Lemma three k : (k < 3)%nat -> k = 0%nat \/ k = 1%nat \/ k = 2%nat.
  Proof. lia. Qed.

  (** Scanning one token. *)
  Lemma scan_step p t : st p t ->
    match scanRune p, t_next t with
    | Some (p', e), Some (t', e') => exists c, e = e' /\ on_tape p' t' /\ scanning input (t_scanner t') /\ t_past t' = c :: t_past t /\
        p_failed p' = p_failed p /\ length (t_ahead t') = pred (length (t_ahead t)) /\ p_tok p' = tok_of c /\
        (mu t' + weight (tok_of c) <= mu t)%nat /\
        (if e then tok_of c = KError true else fine bad (tok_of c)) /\ Forall ok_tok (t_ahead t')
    | _, _ => False
    end.
  Proof.
    intros (HO & HS & HF). pose proof HO as (H1 & H2 & H3 & H4 & H5 & H6). unfold scanRune, t_next. change lookBackAmount with 3%nat.
    destruct (t_ahead t) as [|c ahead] eqn:Ea.
    - cbn [length] in H2. rewrite H2. rewrite H1.
      replace (nth ((p_current p + 1) mod 3) (p_lookBack p) c_zero) with (nth 2 (t_past t) c_zero).
      2: { specialize (H6 2%nat ltac:(lia)). rewrite H2 in H6. cbn [rev app] in H6. rewrite <- H6. f_equal. f_equal. lia. }
      destruct (terminates HU _ _ (nth 2 (t_past t) c_zero) HS) as (s' & c' & E). rewrite E. exists c'. split; [reflexivity|].
      assert (Ec : ((p_current p + 1) mod 3 < 3)%nat) by (apply Nat.mod_upper_bound; lia).
      assert (HO' : on_tape {| p_scanner := s'; p_lookBack := set_nth ((p_current p + 1) mod 3) c' (p_lookBack p); p_current := (p_current p + 1) mod 3; p_unscanned := 0; p_failed := p_failed p |}
        {| t_past := c' :: t_past t; t_ahead := []; t_scanner := s' |}).
      { unfold on_tape. cbn [p_scanner t_scanner p_unscanned t_ahead length p_lookBack p_current t_past rev app]. split; [reflexivity|]. split; [reflexivity|]. split; [lia|].
        split; [now rewrite set_nth_length|]. split; [exact Ec|]. intros k Hk. destruct k as [|k].
        - rewrite Nat.sub_0_r. rewrite <- Nat.add_mod_idemp_r, Nat.mod_same, !Nat.add_0_r by lia. rewrite Nat.mod_mod by lia. rewrite set_nth_same by lia. reflexivity.
        - specialize (H6 k ltac:(lia)). rewrite H2 in H6. cbn [rev app] in H6. cbn [nth]. rewrite <- H6, set_nth_other.
          + f_equal. apply three in H5. destruct H5 as [->|[->| ->]]; assert (k = 0 \/ k = 1)%nat as [->| ->] by lia; reflexivity.
          + apply three in H5. destruct H5 as [->|[->| ->]]; assert (k = 0 \/ k = 1)%nat as [->| ->] by lia; cbn; lia. }
      split; [exact HO'|]. split; [eapply sc_scan; [exact HS|exact E]|]. split; [reflexivity|]. split; [reflexivity|]. split; [reflexivity|].
      split; [rewrite (on_tape_tok _ _ HO') by (cbn; lia); reflexivity|]. destruct (in_order HU _ _ _ _ _ HS E) as (w & Hw & N1 & N2).
      split; [|split; [|constructor]].
      + rewrite !mu_eq, Ea. cbn. rewrite Hw, app_length. destruct (tok_of c') eqn:Et; cbn; try lia; (destruct w; [|cbn; lia]; exfalso; apply N1; [|reflexivity]; intros T; apply tok_eof in T; congruence).
      + destruct (tok_of c') as [| |[|]| | | | | | | |] eqn:Et; try reflexivity; split; try discriminate; intros Hb; try discriminate. exfalso.
        destruct (tok_error _ _ Et) as [T1 T2]. destruct (sound HU _ _ _ _ _ HS E) as [(T & _)|[(_ & _ & [T|T])|(g & w' & f & v & R1 & R2 & R3 & R4)]].
        * congruence.
        * destruct (c_error c'); [discriminate|congruence].
        * exact (Hbad Hb _ HS T).
        * destruct (lexeme_holds_token _ _ _ _ _ _ _ R3 R4) as (_ & N & _). congruence.
    - cbn [length] in H2. rewrite H2. exists c. split; [reflexivity|]. inversion HF as [|? ? F1 F2]; subst. assert (Ec : ((p_current p + 1) mod 3 < 3)%nat) by (apply Nat.mod_upper_bound; lia).
      assert (HO' : on_tape {| p_scanner := p_scanner p; p_lookBack := p_lookBack p; p_current := (p_current p + 1) mod 3; p_unscanned := length ahead; p_failed := p_failed p |}
        {| t_past := c :: t_past t; t_ahead := ahead; t_scanner := t_scanner t |}).
      { unfold on_tape. cbn [p_scanner t_scanner p_unscanned t_ahead length p_lookBack p_current t_past] in *. split; [exact H1|]. split; [reflexivity|]. split; [lia|]. split; [exact H4|].
        split; [exact Ec|]. intros k Hk. specialize (H6 k Hk). cbn [rev] in H6. rewrite <- app_assoc in H6. cbn [app] in H6. rewrite <- H6. f_equal. rewrite H2.
        replace (p_current p + S (length ahead) + 3 - k)%nat with (p_current p + 1 + (length ahead + 3 - k))%nat by lia.
        replace ((p_current p + 1) mod 3 + length ahead + 3 - k)%nat with ((p_current p + 1) mod 3 + (length ahead + 3 - k))%nat by lia.
        now rewrite Nat.add_mod_idemp_l by lia. }
      split; [exact HO'|]. split; [exact HS|]. split; [reflexivity|]. split; [reflexivity|]. split; [reflexivity|].
      split; [rewrite (on_tape_tok _ _ HO') by (cbn in *; lia); reflexivity|]. split; [|split; [exact F1|exact F2]]. rewrite !mu_eq, Ea. cbn. lia.
  Qed.

  (** Putting one back. *)
  Lemma back_step p t c past : st p t -> (length (t_ahead t) < 3)%nat -> t_past t = c :: past -> fine bad (tok_of c) ->
    exists p', unscan p = Some p' /\ t_back t = Some {| t_past := past; t_ahead := c :: t_ahead t; t_scanner := t_scanner t |} /\
      st p' {| t_past := past; t_ahead := c :: t_ahead t; t_scanner := t_scanner t |} /\ p_failed p' = p_failed p.
  Proof.
    intros (HO & HS & HF) Hu Ep Hc. pose proof HO as (H1 & H2 & H3 & H4 & H5 & H6). unfold unscan, t_back. change lookBackAmount with 3%nat. rewrite Ep. replace (3 <? S (p_unscanned p))%nat with false by (symmetry; apply Nat.ltb_ge; lia).
    eexists. split; [reflexivity|]. split; [reflexivity|]. split; [|reflexivity]. split; [|split; [exact HS|constructor; assumption]].
    unfold on_tape. cbn [p_scanner t_scanner p_unscanned t_ahead length p_lookBack p_current t_past]. split; [exact H1|]. split; [lia|]. split; [lia|]. split; [exact H4|].
    split; [destruct (p_current p); lia|]. intros k Hk. specialize (H6 k Hk). cbn [rev]. rewrite <- app_assoc. cbn [app]. rewrite <- Ep, <- H6. f_equal.
    destruct (p_current p) as [|cu]; [|f_equal; lia]. replace (3 - 1 + S (p_unscanned p) + 3 - k)%nat with (0 + p_unscanned p + 3 - k + 1 * 3)%nat by lia. now rewrite Nat.mod_add by lia.
  Qed.

  (** A different scanner. *)
  Lemma set_step p t s : st p t -> scanning input s -> st (set_scanner p s) (t_set t s).
  Proof. intros ((H1 & H2 & H3 & H4 & H5 & H6) & HS & HF) H. split; [|split; [exact H|exact HF]]. unfold on_tape. cbn. auto 10. Qed.

  Lemma rest_reader s : (length (rest (RuneReader s)) <= length (rest s))%nat.
  Proof.
    unfold rest, RuneReader. destruct (dropLine (s_in s)) as [l nl] eqn:E. cbn. rewrite !app_length. pose proof (dropLine_suffix (s_in s)) as [w Hw]. rewrite E in Hw. cbn in Hw. rewrite Hw, app_length. lia.
  Qed.

  Variable C : list tok -> Prop.
  Variable M : nat.

  Lemma run_sound {A} (base : list sctx) (g : act A) : forall p t cs m (Q : list tok -> nat -> nat -> A -> Prop),
    st p t -> t_past t = cs ++ base -> Forall ok_tok cs -> (mu t <= m)%nat ->
    wp bad C M (map tok_of cs) (length (t_ahead t)) m g Q ->
    match run g p, t_run g t with
    | Done a p', Done a' t' => a' = a /\ st p' t' /\ p_failed p' = p_failed p /\
        exists cs' m', t_past t' = cs' ++ base /\ Forall ok_tok cs' /\ (mu t' <= m')%nat /\ Q (map tok_of cs') (length (t_ahead t')) m' a
    | Failed p', Failed t' => st p' t' /\ p_failed p' = p_failed p /\ (length (t_ahead t') < 3)%nat /\ (mu t' <= M)%nat
    | Crashed _, Crashed t' => exists cs', t_past t' = cs' ++ base /\ C (map tok_of cs')
    | _, _ => False
    end.
  Proof.
    induction g as [a| | | |k IH|k IH|k IH|s k IH|i k IH|l k IH|k IH]; intros p t cs m Q HT Ep Hc Hm HW; cbn [run t_run]; cbn [wp] in HW.
    - split; [reflexivity|]. split; [exact HT|]. split; [reflexivity|]. exists cs, m. auto.
    - split; [exact HT|]. split; [reflexivity|]. lia.
    - exists cs. auto.
    - exact HW.
    - destruct HW as (W1 & W2 & W3). pose proof (scan_step p t HT) as S. destruct (scanRune p) as [[p' e]|]; [|contradiction].
      destruct (t_next t) as [[t' e']|]; [|contradiction]. destruct S as (c & <- & S1 & S2 & S3 & S4 & S5 & S6 & S7 & S8 & S9). destruct e.
      + split; [now split|]. split; [exact S4|]. split; [destruct HT as ((_ & _ & HT & _) & _); lia|]. rewrite S8 in S7. cbn in S7. lia.
      + assert (Et : t_tok t' = tok_of c) by (unfold t_tok; now rewrite S3). rewrite S6, Et.
        assert (D : tok_of c = KEOF \/ tok_of c <> KEOF) by (destruct (tok_of c); auto; right; discriminate). rewrite <- S4. destruct D as [D|D].
        * apply (IH (tok_of c) p' t' (c :: cs) m Q); [now split|now rewrite S3, Ep|now constructor|lia|]. rewrite S5. cbn [map]. rewrite D. exact W2.
        * assert (Ew : weight (tok_of c) = 1%nat) by (destruct (tok_of c); try reflexivity; now elim D).
          apply (IH (tok_of c) p' t' (c :: cs) (pred m) Q); [now split|now rewrite S3, Ep|now constructor|lia|]. rewrite S5. cbn [map]. apply W3; [exact S8|exact D|lia].
    - destruct HW as [W1 W2]. destruct cs as [|c cs]; [contradiction|]. cbn [map] in W2. inversion Hc as [|? ? C1 C2]; subst.
      destruct (back_step p t c (cs ++ base) HT W1 Ep C1) as (p' & E1 & E2 & S1 & S2). rewrite E1, E2.
      specialize (IH p' _ cs (m + weight (tok_of c))%nat Q S1 eq_refl C2). rewrite S2 in IH. apply IH; [|exact W2]. rewrite mu_eq in *. cbn in *. lia.
    - destruct HW as [W1 W2]. destruct cs as [|c cs]; [contradiction|]. cbn [map] in W2. rewrite (on_tape_tok p t) by (try apply HT; assumption). unfold t_tok. rewrite Ep. cbn [app hd].
      apply (IH (tok_of c) p t (c :: cs) m Q); auto.
    - replace (s_ids (p_scanner p)) with (s_ids (t_scanner t)) by (destruct HT as ((-> & _) & _); reflexivity). destruct (ID (s_ids (t_scanner t)) s false) as [ids id].
      replace (set_ids (p_scanner p) ids) with (set_ids (t_scanner t) ids) by (destruct HT as ((-> & _) & _); reflexivity).
      apply (IH id (set_scanner p (set_ids (t_scanner t) ids)) (t_set t (set_ids (t_scanner t) ids)) cs m Q); auto. apply set_step; [exact HT|]. apply sc_ids, HT.
    - replace (s_ids (p_scanner p)) with (s_ids (t_scanner t)) by (destruct HT as ((-> & _) & _); reflexivity). apply (IH _ p t cs m Q); auto.
    - replace (s_buffer (p_scanner p)) with (s_buffer (t_scanner t)) by (destruct HT as ((-> & _) & _); reflexivity). apply (IH _ p t cs m Q); auto.
    - replace (p_scanner p) with (t_scanner t) by (destruct HT as ((-> & _) & _); reflexivity).
      apply (IH _ (set_scanner p (RuneReader (t_scanner t))) (t_set t (RuneReader (t_scanner t))) cs m Q); auto.
      + apply set_step; [exact HT|]. apply sc_reader, HT.
      + rewrite mu_eq in *. cbn. pose proof (rest_reader (t_scanner t)). lia.
  Qed.
End Run.
