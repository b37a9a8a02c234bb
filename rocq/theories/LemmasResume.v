(** What the parser does after an error. *)

From Verif Require Import ModelParser SpecParser SpecExpr SpecTokens SpecRecover LemmasBase LemmasScanProps LemmasScanText LemmasParserWp LemmasParserSafe LemmasParserRun LemmasParser LemmasParserEnds LemmasParserProps LemmasRecover LemmasFuel LemmasGrammarLink.

Section Resume.
  Context {X : FloatLib} {L : CaseLib} {U : RuneLib} {B : BufLib} {P : PrintLib} (HU : RuneLib_scan U).

  (** ** What was read before does not matter *)
  Section Frame.
    Variable input : list Z.
    Hypothesis Hbad : forall s, scanning input s -> ~ bad_escape (rest s).

    Lemma next_alike t u : alike t u -> scanning input (t_scanner t) ->
      match t_next t, t_next u with
      | Some (t', e), Some (u', e') => e = e' /\ alike t' u' /\ scanning input (t_scanner t') /\
          exists c d, t_past t' = c :: t_past t /\ t_past u' = d :: t_past u /\ tok_of c = tok_of d
      | None, None => True
      | _, _ => False
      end.
    Proof.
      intros [E1 E2] HS. unfold t_next. rewrite <- E1. destruct (t_ahead t) as [|c ta]; destruct (t_ahead u) as [|d ua]; try discriminate.
      - destruct (terminates HU _ _ (nth 2 (t_past t) c_zero) HS) as (s' & c' & E). rewrite E.
        destruct (Scan_uniform HU _ _ _ (nth 2 (t_past u) c_zero) _ _ HS (Hbad _ HS) E) as (d' & E' & T). rewrite E', T. split; [reflexivity|].
        split; [now split|]. split; [eapply sc_scan; eassumption|]. exists c', d'. cbn. auto.
      - cbn [map] in E2. injection E2 as E2 E3. split; [reflexivity|]. split; [now split|]. split; [exact HS|]. exists c, d. cbn. auto.
    Qed.

    Definition twins (cs ds b1 b2 : list sctx) (t u : tape) : Prop :=
      alike t u /\ scanning input (t_scanner t) /\ t_past t = cs ++ b1 /\ t_past u = ds ++ b2 /\ map tok_of cs = map tok_of ds.

    Lemma run_alike {A} b1 b2 (g : act A) : forall t u cs ds (Q : list tok -> A -> Prop),
      twins cs ds b1 b2 t u -> qp (map tok_of cs) g Q ->
      match t_run g t, t_run g u with
      | Done a t', Done a' u' => a = a' /\ alike t' u'
      | Failed t', Failed u' => alike t' u' /\ t_tok t' = t_tok u'
      | Crashed _, Crashed _ | Stuck, Stuck => True
      | _, _ => False
      end.
    Proof.
      induction g as [a| | | |k IH|k IH|k IH|s k IH|i k IH|l k IH|k IH]; intros t u cs ds Q HT HW; pose proof HT as (HA & HS & E1 & E2 & E3); cbn [t_run]; cbn [qp] in HW; auto.
      - split; [exact HA|]. unfold t_tok. rewrite E1, E2. destruct HW as [HW _]. destruct cs as [|c cs]; [now elim HW|]. destruct ds as [|d ds]; [discriminate|]. cbn in *. congruence.
      - destruct HW as [_ HW]. pose proof (next_alike t u HA HS) as K. destruct (t_next t) as [[t' e]|]; destruct (t_next u) as [[u' e']|]; try contradiction; auto.
        destruct K as (<- & HA' & HS' & c & d & F1 & F2 & F3). assert (T : t_tok t' = t_tok u') by (unfold t_tok; rewrite F1, F2; exact F3). destruct e; [now split|].
        rewrite <- T. replace (t_tok t') with (tok_of c) by (unfold t_tok; now rewrite F1).
        apply (IH (tok_of c) t' u' (c :: cs) (d :: ds) Q); [|apply HW]. split; [exact HA'|]. split; [exact HS'|]. rewrite F1, F2, E1, E2. cbn. rewrite E3, F3. auto.
      - unfold t_back. rewrite E1, E2. destruct cs as [|c cs]; [contradiction|]. destruct ds as [|d ds]; [discriminate|]. cbn [app]. cbn [map] in E3, HW. injection E3 as E3 E4.
        apply (IH _ _ cs ds Q); [|exact HW]. split; [|split; [exact HS|cbn; auto]]. destruct HA as [HA1 HA2]. split; [exact HA1|]. cbn [t_ahead map]. congruence.
      - destruct cs as [|c cs]; [contradiction|]. destruct ds as [|d ds]; [discriminate|]. unfold t_tok. rewrite E1, E2. cbn [app hd]. cbn [map] in E3. injection E3 as E3 E4. rewrite <- E3.
        apply (IH _ _ _ (c :: cs) (d :: ds) Q); [|exact HW]. split; [exact HA|]. split; [exact HS|]. cbn. rewrite E3, E4. auto.
      - destruct HA as [HA1 HA2]. rewrite <- HA1. destruct (ID (s_ids (t_scanner t)) s false) as [ids id].
        apply (IH _ _ _ cs ds Q); [|apply HW]. split; [now split|]. split; [now constructor|]. auto.
      - rewrite <- (proj1 HA). apply (IH _ _ _ cs ds Q); [exact HT|apply HW].
      - rewrite <- (proj1 HA). apply (IH _ _ _ cs ds Q); [exact HT|apply HW].
      - destruct HA as [HA1 HA2]. rewrite <- HA1. apply (IH _ _ _ cs ds Q); [|apply HW]. split; [now split|]. split; [constructor; exact HS|]. auto.
    Qed.

    Definition alike_parsed (r r' : t_parsed) : Prop :=
      match r, r' with
      | TStmt s t, TStmt s' u => s = s' /\ alike t u
      | TErr t, TErr u => alike t u
      | TFailed t, TFailed u => alike t u /\ t_tok t = t_tok u
      | TEOF t, TEOF u => alike t u
      | TCrash _, TCrash _ | TStuck, TStuck => True
      | _, _ => False
      end.

    Lemma skip_alike n : forall t u, alike t u -> scanning input (t_scanner t) ->
      match t_skip n t, t_skip n u with
      | inl r, inl r' => alike_parsed r r'
      | inr t', inr u' => alike t' u' /\ scanning input (t_scanner t')
      | _, _ => False
      end.
    Proof.
      induction n as [|n IH]; intros t u HA HS; cbn [t_skip]; [exact Logic.I|]. pose proof (next_alike t u HA HS) as K.
      destruct (t_next t) as [[t' e]|]; destruct (t_next u) as [[u' e']|]; try contradiction; [|exact Logic.I].
      destruct K as (<- & HA' & HS' & c & d & F1 & F2 & F3). destruct e; [exact HA'|]. assert (T : t_tok t' = t_tok u') by (unfold t_tok; rewrite F1, F2; exact F3). rewrite <- T.
      destruct (t_tok t'); try (apply IH; assumption); [exact HA'|split; assumption].
    Qed.

    Lemma whole_alike t u : alike t u -> scanning input (t_scanner t) ->
      alike_parsed (match t_run (parseWhole (t_fuel t)) t with Done s t => TStmt s t | Failed t => TFailed t | Crashed t => TCrash t | Stuck => TStuck end)
                   (match t_run (parseWhole (t_fuel u)) u with Done s t => TStmt s t | Failed t => TFailed t | Crashed t => TCrash t | Stuck => TStuck end).
    Proof.
      intros HA HS. replace (t_fuel u) with (t_fuel t).
      2:{ unfold t_fuel. destruct HA as [-> HA2]. f_equal. rewrite <- (map_length tok_of), <- (map_length tok_of (t_ahead u)). now rewrite HA2. }
      pose proof (run_alike (t_past t) (t_past u) (parseWhole (t_fuel t)) t u [] [] _ ltac:(now repeat split; try apply HA) (q_parseWhole (t_fuel t))) as K.
      destruct (t_run _ t) as [a t'|t'|t'|]; destruct (t_run _ u) as [a' u'|u'|u'|]; try contradiction; exact K.
    Qed.

    Lemma parse_alike failed t u : alike t u -> scanning input (t_scanner t) -> alike_parsed (t_parse failed t) (t_parse failed u).
    Proof.
      intros HA HS. unfold t_parse. pose proof (next_alike t u HA HS) as K.
      destruct (t_next t) as [[t' e]|]; destruct (t_next u) as [[u' e']|]; try contradiction; [|exact Logic.I].
      destruct K as (<- & HA' & HS' & c & d & F1 & F2 & F3). destruct e; [exact HA'|]. assert (T : t_tok t' = t_tok u') by (unfold t_tok; rewrite F1, F2; exact F3). rewrite <- T.
      unfold t_back. rewrite F1, F2. set (t2 := {| t_past := t_past t; t_ahead := c :: t_ahead t'; t_scanner := t_scanner t' |}). set (u2 := {| t_past := t_past u; t_ahead := d :: t_ahead u'; t_scanner := t_scanner u' |}).
      assert (HA2 : alike t2 u2) by (destruct HA' as [G1 G2]; split; cbn; congruence).
      assert (EF : t_fuel u2 = t_fuel t2).
      { unfold t_fuel, t2, u2. cbn [t_scanner t_ahead length]. destruct HA' as [-> G2]. rewrite <- (map_length tok_of), <- (map_length tok_of (t_ahead t')). now rewrite G2. }
      assert (K : alike_parsed (match (if failed then t_skip (t_fuel t2) t2 else inr t2) with inl r => r | inr t => match t_run (parseWhole (t_fuel t)) t with Done s t => TStmt s t | Failed t => TFailed t | Crashed t => TCrash t | Stuck => TStuck end end)
                               (match (if failed then t_skip (t_fuel u2) u2 else inr u2) with inl r => r | inr t => match t_run (parseWhole (t_fuel t)) t with Done s t => TStmt s t | Failed t => TFailed t | Crashed t => TCrash t | Stuck => TStuck end end)).
      { destruct failed; [|now apply whole_alike]. rewrite EF. pose proof (skip_alike (t_fuel t2) t2 u2 HA2 HS') as K. destruct (t_skip _ t2) as [r|t3]; destruct (t_skip _ u2) as [r'|u3]; try contradiction; [exact K|]. now apply whole_alike. }
      destruct (t_tok t'); exact K || exact HA'.
    Qed.

    Lemma Parse_alike p q : alike_parsers input p q -> alike_results input (Parse p) (Parse q).
    Proof.
      intros (EF & t & u & H1 & H2 & HA). pose proof (parse_same HU _ _ _ H1) as K1. pose proof (parse_same HU _ _ _ H2) as K2. rewrite <- EF in K2.
      pose proof (parse_alike (p_failed p) t u HA (proj1 (proj2 H1))) as K. unfold same in *.
      destruct (Parse p); destruct (t_parse _ t); try contradiction; destruct (Parse q); destruct (t_parse _ u); try contradiction; cbn [alike_results alike_parsed] in *; auto.
      - destruct K as [-> HA']. destruct K1 as (-> & I1 & F1). destruct K2 as (-> & I2 & F2). rewrite <- (proj1 HA'). split; [reflexivity|]. split; [congruence|]. eauto.
      - destruct K1, K2. split; [congruence|]. eauto.
      - destruct K as [K T]. destruct K1 as [I1 F1], K2 as [I2 F2]. rewrite <- T in F2. split; [congruence|]. eauto.
      - destruct K1, K2. split; [congruence|]. eauto.
    Qed.

    Lemma to_eof_alike p l : to_eof p l -> forall q, alike_parsers input p q -> exists l', to_eof q l' /\ Forall2 (alike_results input) l l'.
    Proof.
      induction 1 as [p p' E|p E|p s p' l E _ IH|p p' l E _ IH]; intros q HA; pose proof (Parse_alike p q HA) as K; rewrite E in K; destruct (Parse q) as [s' q'|q'|q'| |] eqn:E'; try contradiction.
      - exists [PEOF q']. split; [now constructor|]. constructor; [exact K|constructor].
      - exists [PCrash]. split; [now constructor|]. constructor; [exact K|constructor].
      - destruct K as [-> K]. destruct (IH q' K) as (l' & H1 & H2). exists (PStmt s' q' :: l'). split; [now constructor|]. constructor; [now split|exact H2].
      - destruct (IH q' K) as (l' & H1 & H2). exists (PErr q' :: l'). split; [now constructor|]. constructor; [exact K|exact H2].
    Qed.
  End Frame.

  (** ** Where a call starts *)
  Lemma skip_behind n : forall t t', t_skip n t = inr t' -> behind_next t t'.
  Proof.
    induction n as [|n IH]; intros t t' E; cbn [t_skip] in E; [discriminate|]. destruct (t_next t) as [[t1 [|]]|] eqn:En; try discriminate.
    destruct (t_tok t1) eqn:Et; try discriminate; [injection E as <-; now apply bn_end|..]; (eapply bn_more; [exact En|rewrite Et; discriminate..|now apply IH]).
  Qed.
  Lemma behind_skip t t' : behind_next t t' -> forall n, t_skip n t = inl TStuck \/ t_skip n t = inr t'.
  Proof.
    induction 1 as [t t' En Et|t t1 t' En N1 N2 _ IH]; intros [|n]; cbn [t_skip]; auto; rewrite En.
    - rewrite Et. auto.
    - destruct (t_tok t1); try contradiction; apply IH.
  Qed.
  Lemma next_back t t' c s : t_next t = Some (t', false) -> t_past t' = c :: t_past t -> s = t_scanner t' ->
    t_next {| t_past := t_past t; t_ahead := c :: t_ahead t'; t_scanner := s |} = Some (t', false).
  Proof. intros E1 E2 ->. unfold t_next. cbn. rewrite <- E2. now destruct t'. Qed.
  Lemma behind_back t u t' : t_next t = t_next u -> behind_next t t' -> behind_next u t'.
  Proof. intros E H. inversion H as [? ? H1 H2|? t1 ? H1 H2 H3 H4]; subst; rewrite E in H1; [now apply bn_end|now apply (bn_more _ t1)]. Qed.

  (** The rest of a call. *)
  Definition t_whole (t : tape) : t_parsed :=
    match t_run (parseWhole (t_fuel t)) t with Done s t => TStmt s t | Failed t => TFailed t | Crashed t => TCrash t | Stuck => TStuck end.
  Lemma parse_parts failed t : 
    match t_next t with
    | None => t_parse failed t = TStuck
    | Some (t1, true) => t_parse failed t = TErr t1
    | Some (t1, false) =>
        (t_tok t1 = KEOF /\ t_parse failed t = TEOF t1) \/
        (t_tok t1 <> KEOF /\ exists t2, t_back t1 = Some t2 /\ t_past t2 = t_past t /\ t_next t2 = Some (t1, false) /\ t_scanner t2 = t_scanner t1 /\ length (t_ahead t2) = S (length (t_ahead t1)) /\
           t_parse failed t = match (if failed then t_skip (t_fuel t2) t2 else inr t2) with inl r => r | inr t => t_whole t end)
    end.
  Proof.
    unfold t_parse. destruct (t_next t) as [[t1 [|]]|] eqn:En; [reflexivity| |reflexivity]. destruct (t_next_past _ _ _ En) as [c Ec]. unfold t_back. rewrite Ec.
    assert (D : t_tok t1 = KEOF \/ t_tok t1 <> KEOF) by (destruct (t_tok t1); auto; right; discriminate). destruct D as [D|D]; [left; rewrite D; now split|right]. split; [exact D|].
    eexists. split; [reflexivity|]. split; [reflexivity|]. split; [now apply next_back|]. split; [reflexivity|]. split; [reflexivity|].
    fold t_whole. destruct (t_tok t1); try contradiction; reflexivity.
  Qed.

  Lemma whole_ends t : 
    match t_whole t with
    | TStmt s t' => exists k cs, t_past t' = k :: cs ++ t_past t /\ (tok_of k = KEnd \/ tok_of k = KEOF) /\ cs <> [] /\ ~ In KEnd (removelast (map tok_of cs))
    | TFailed t' => exists cs, t_past t' = cs ++ t_past t /\ cs <> [] /\ ~ In KEnd (removelast (tl (map tok_of cs)))
    | TCrash _ | TStuck => True
    | _ => False
    end.
  Proof.
    unfold t_whole. pose proof (qp_run (t_past t) (parseWhole (t_fuel t)) t [] _ eq_refl (q_parseWhole (t_fuel t))) as K.
    destruct (t_run _ t) as [a t'|t'|t'|]; auto.
    destruct K as (cs & E & tk & q & Eq & Hk & G1 & G2). destruct cs as [|k cs]; [discriminate|]. cbn [map] in Eq. injection Eq as <- <-. exists k, cs. split; [exact E|]. split; [exact Hk|].
    split; [intros ->; now apply G1|exact G2].
  Qed.

  Lemma skip_ends n : forall t r, t_skip n t = inl r ->
    match r with
    | TErr t' => exists c cs, t_past t' = c :: cs ++ t_past t /\ tok_of c = KError true /\ ~ In KEnd (map tok_of cs)
    | TEOF t' => t_tok t' = KEOF
    | TStuck => True
    | _ => False
    end.
  Proof.
    induction n as [|n IH]; intros t r E; cbn [t_skip] in E; [now injection E as <-|]. destruct (t_next t) as [[t1 e]|] eqn:En; [|now injection E as <-]. destruct (t_next_past _ _ _ En) as [c Ec]. destruct e.
    - injection E as <-. exists c, []. split; [exact Ec|]. split; [|intros []]. revert En. unfold t_next. destruct (t_ahead t); [|discriminate]. destruct (Scan _ _) as [[s' c']|]; [|discriminate]. intros [= <- E]. cbn in Ec. injection Ec as ->.
      destruct (tok_of c) as [| |[|]| | | | | | | |]; try discriminate. reflexivity.
    - destruct (t_tok t1) eqn:Et; try (injection E as <-; exact Et); try discriminate E;
      (specialize (IH _ _ E); destruct r; auto; destruct IH as (c' & cs & I1 & I2 & I3); exists c', (cs ++ [c]); rewrite I1, Ec, <- app_assoc; split; [reflexivity|]; split; [exact I2|];
       rewrite map_app, in_app_iff; intros [H|[H|[]]]; [now apply I3|]; unfold t_tok in Et; rewrite Ec in Et; cbn in Et; congruence).
  Qed.

  Lemma error_next t t1 : t_next t = Some (t1, true) -> exists c, t_past t1 = c :: t_past t /\ tok_of c = KError true.
  Proof.
    intros En. destruct (t_next_past _ _ _ En) as [c Ec]. exists c. split; [exact Ec|]. revert En. unfold t_next. destruct (t_ahead t); [|discriminate]. destruct (Scan _ _) as [[s' c']|]; [|discriminate]. intros [= <- E]. cbn in Ec. injection Ec as ->.
    destruct (tok_of c) as [| |[|]| | | | | | | |]; try discriminate. reflexivity.
  Qed.

  Lemma call_ends input p t : in_step input p t ->
    match Parse p with
    | PStmt s p' => exists t0 t' k cs, starts (p_failed p) t t0 /\ in_step input p' t' /\
        t_past t' = k :: cs ++ t_past t0 /\ (tok_of k = KEnd \/ tok_of k = KEOF) /\ cs <> [] /\ ~ In KEnd (removelast (map tok_of cs)) /\
        p_failed p' = false
    | PErr p' =>
        (exists t' c cs, in_step input p' t' /\ t_past t' = c :: cs ++ t_past t /\ tok_of c = KError true /\ ~ In KEnd (map tok_of cs) /\
           (p_failed p = false -> cs = []) /\ p_failed p' = p_failed p) \/
        (exists t0 t' cs, starts (p_failed p) t t0 /\ in_step input p' t' /\
           t_past t' = cs ++ t_past t0 /\ cs <> [] /\ ~ In KEnd (removelast (tl (map tok_of cs))) /\
           p_failed p' = match t_tok t' with KEnd => false | _ => true end)
    | PEOF p' => exists t', in_step input p' t' /\ t_tok t' = KEOF /\ p_failed p' = p_failed p
    | PCrash => True
    | PStuck => False
    end.
  Proof.
    intros HI. pose proof (parse_same HU _ _ _ HI) as K. pose proof (parse_parts (p_failed p) t) as R. destruct (t_next t) as [[t1 [|]]|] eqn:En.
    - rewrite R in K. destruct (Parse p); try contradiction. left. destruct (error_next _ _ En) as (c & E1 & E2). destruct K as [K1 K2]. exists t1, c, []. cbn. intuition auto.
    - destruct R as [[E R]|(N & t2 & E1 & E2 & E3 & _ & _ & R)]; rewrite R in K.
      + destruct (Parse p); try contradiction. destruct K. eauto.
      + destruct (p_failed p) eqn:Ef.
        * destruct (t_skip (t_fuel t2) t2) as [r|t0] eqn:Es.
          -- apply skip_ends in Es. destruct r; try contradiction; destruct (Parse p); try contradiction.
             ++ left. destruct Es as (c & cs & H1 & H2 & H3). destruct K. rewrite E2 in H1. do 3 eexists. split; [eassumption|]. split; [exact H1|]. split; [exact H2|]. split; [exact H3|]. split; [discriminate|congruence].
             ++ destruct K. eexists. split; [eassumption|]. split; [exact Es|congruence].
          -- apply skip_behind in Es. assert (HB : behind_next t t0) by (eapply behind_back; [|exact Es]; congruence). pose proof (whole_ends t0) as W. destruct (t_whole t0); try contradiction; destruct (Parse p); try contradiction; try exact Logic.I.
             ++ destruct W as (k & cs & W). destruct K as (_ & K1 & K2). exists t0, t3, k, cs. cbn [starts]. intuition auto.
             ++ right. destruct W as (cs & W). destruct K as (K1 & K2). exists t0, t3, cs. cbn [starts]. intuition auto.
        * pose proof (whole_ends t2) as W. rewrite E2 in W. destruct (t_whole t2); try contradiction; destruct (Parse p); try contradiction; try exact Logic.I.
          -- destruct W as (k & cs & W). destruct K as (_ & K1 & K2). exists t, t0, k, cs. cbn [starts]. intuition auto.
          -- right. destruct W as (cs & W). destruct K as (K1 & K2). exists t, t0, cs. cbn [starts]. intuition auto.
    - rewrite R in K. destruct (Parse p); contradiction.
  Qed.

  (** ** Behind the semicolon *)
  Lemma on_some_tape input t : scanning input (t_scanner t) -> (length (t_ahead t) <= 2)%nat -> Forall (fun c => tok_of c <> KError true) (t_ahead t) ->
    exists q, in_step input q t /\ p_failed q = false.
  Proof.
    intros HS Hu HF. set (l := rev (t_ahead t) ++ t_past t).
    exists {| p_scanner := t_scanner t; p_lookBack := [nth 0 l c_zero; nth 2 l c_zero; nth 1 l c_zero]; p_current := match length (t_ahead t) with O => O | S O => 2 | _ => 1 end; p_unscanned := length (t_ahead t); p_failed := false |}.
    split; [|reflexivity]. split; [|now split]. unfold on_tape. cbn [p_scanner p_unscanned p_lookBack p_current]. split; [reflexivity|]. split; [reflexivity|]. split; [lia|]. split; [reflexivity|].
    fold l. destruct (length (t_ahead t)) as [|[|[|n]]]; try lia; (split; [lia|]); intros [|[|[|k]]] Hk; try lia; reflexivity.
  Qed.

  Lemma behind_step input t t' : behind_next t t' -> scanning input (t_scanner t) -> (length (t_ahead t) <= 2)%nat -> Forall (fun c => tok_of c <> KError true) (t_ahead t) ->
    scanning input (t_scanner t') /\ (length (t_ahead t') <= 2)%nat /\ Forall (fun c => tok_of c <> KError true) (t_ahead t').
  Proof.
    assert (N : forall t t', t_next t = Some (t', false) -> scanning input (t_scanner t) -> (length (t_ahead t) <= 2)%nat -> Forall (fun c => tok_of c <> KError true) (t_ahead t) ->
      scanning input (t_scanner t') /\ (length (t_ahead t') <= 2)%nat /\ Forall (fun c => tok_of c <> KError true) (t_ahead t')).
    { clear. intros t t' E HS Hu HF. unfold t_next in E. destruct (t_ahead t) as [|c l] eqn:Ea.
      - destruct (Scan _ _) as [[s c]|] eqn:Es; [|discriminate]. injection E as <- _. cbn. split; [eapply sc_scan; eassumption|]. split; [lia|constructor].
      - injection E as <-. cbn in *. split; [exact HS|]. split; [lia|]. now inversion HF. }
    induction 1 as [t t' En Et|t t1 t' En N1 N2 _ IH]; intros HS Hu HF; [now apply (N t)|]. destruct (N _ _ En HS Hu HF) as (H1 & H2 & H3). now apply IH.
  Qed.

  Lemma resume_tape input p t t' : in_step input p t -> p_failed p = true -> behind_next t t' -> goes_on t' ->
    t_parse true t = t_parse false t'.
  Proof.
    intros HI Hf HB (t3 & En3 & N3). pose proof HI as (_ & HS & Hu & HF). destruct (behind_step input t t' HB HS Hu HF) as (HS' & Hu' & HF').
    destruct (on_some_tape input t' HS' Hu' HF') as (q & Hq & Hqf). pose proof (parse_same HU _ _ _ HI) as K1. pose proof (parse_same HU _ _ _ Hq) as K2. rewrite Hf in K1. rewrite Hqf in K2.
    assert (S1 : t_parse true t <> TStuck) by (intros E; rewrite E in K1; destruct (Parse p); contradiction).
    assert (S2 : t_parse false t' <> TStuck) by (intros E; rewrite E in K2; destruct (Parse q); contradiction).
    clear K1 K2. pose proof (parse_parts true t) as R1. pose proof (parse_parts false t') as R2. rewrite En3 in R2. destruct R2 as [[E _]|(_ & t4 & B1 & B2 & B3 & B4 & B5 & R2)]; [contradiction|].
    assert (HN : exists t1, t_next t = Some (t1, false) /\ t_tok t1 <> KEOF) by (destruct HB as [? ? H1 H2|]; [eexists; split; [eassumption|rewrite H2; discriminate]|eauto]). destruct HN as (t1 & En & N1). rewrite En in R1.
    destruct R1 as [[E _]|(_ & t2 & A1 & A2 & A3 & A4 & A5 & R1)]; [contradiction|]. assert (HB2 : behind_next t2 t') by (eapply behind_back; [|exact HB]; congruence).
    destruct (behind_skip _ _ HB2 (t_fuel t2)) as [E|E]; rewrite E in R1; [contradiction|]. rewrite R1 in *. rewrite R2 in *. clear R1 R2 E.
    destruct (t_next_past _ _ _ En3) as (c & Ec). assert (P3 : t_past t3 <> []) by (rewrite Ec; discriminate).
    unfold t_whole in *. assert (EQ : forall n, t_run (parseWhole n) t4 = t_run (parseWhole n) t') by (intros n; rewrite (t_run_whole n t4 t3 B3 P3), (t_run_whole n t' t3 En3 P3); reflexivity).
    rewrite EQ in *. set (n := t_fuel t') in *. set (m := t_fuel t4) in *.
    assert (E : t_run (parseWhole n) t' = t_run (parseWhole m) t').
    { transitivity (t_run (parseWhole (Nat.max n m)) t').
      - symmetry. apply fits_t_run; [apply f_parseWhole, Nat.le_max_l|]. intros Z. rewrite Z in S1. now apply S1.
      - apply fits_t_run; [apply f_parseWhole, Nat.le_max_r|]. intros Z. rewrite Z in S2. now apply S2. }
    now rewrite E.
  Qed.

  Lemma resume input p t t' : in_step input p t -> p_failed p = true -> behind_next t t' -> goes_on t' ->
    same input true (Parse p) (t_parse false t').
  Proof. intros HI Hf HB HG. rewrite <- (resume_tape input p t t' HI Hf HB HG), <- Hf. now apply parse_same. Qed.

  Lemma resume_text input p t t' vs left : in_step input p t -> p_failed p = true -> behind_next t t' -> t_ahead t' = [] ->
    real (s_ids (t_scanner t')) -> statement_text (rest (t_scanner t')) vs left ->
    exists T, real T /\ later (s_ids (t_scanner t')) T /\ (forall n q, In (TName n q) vs -> knows T n q) /\
      forall s, text_says T vs s ->
      exists p', Parse p = PStmt (Some s) p' /\ s_ids (p_scanner p') = T /\ rest (p_scanner p') = left /\ p_unscanned p' = 0%nat /\ p_failed p' = false.
  Proof.
    intros HI Hf HB HE HR HT. pose proof HI as (_ & HS & Hu & HF). destruct (behind_step input t t' HB HS Hu HF) as (HS' & Hu' & HF'). destruct (on_some_tape input t' HS' Hu' HF') as (q & Hq & Hqf).
    pose proof Hq as ((O1 & O2 & _) & _). rewrite <- O1 in HR, HT.
    destruct (parse_text_step HU input q t' vs left Hq ltac:(now rewrite O2, HE) Hqf HR HT) as (T & T1 & T2 & T3 & T4). rewrite O1 in T2. exists T. split; [exact T1|]. split; [exact T2|]. split; [exact T3|].
    intros s Hs. destruct (T4 s Hs) as (q' & E & Q1 & Q2 & Q3 & Q4).
    assert (HG : goes_on t').
    { pose proof (parse_same HU _ _ _ Hq) as K. rewrite E in K. pose proof (parse_parts (p_failed q) t') as R. destruct (t_next t') as [[t3 [|]]|] eqn:En.
      - rewrite R in K. contradiction.
      - destruct R as [[_ R]|(N & _)]; [rewrite R in K; contradiction|]. now exists t3.
      - rewrite R in K. contradiction. }
    pose proof (resume input p t t' HI Hf HB HG) as K. pose proof (parse_same HU _ _ _ Hq) as K2. rewrite E, Hqf in K2. destruct (t_parse false t') as [s' u|u|u|u|u|]; try contradiction.
    destruct (Parse p) as [s2 p'|p'|p'| |]; try contradiction. destruct K2 as (K2 & ((O1' & O2' & _) & _) & _). destruct K as (-> & ((P1 & P2 & _) & _) & P3). exists p'. rewrite P1, P2. rewrite O1' in *. rewrite O2' in *. rewrite <- K2. auto.
  Qed.

  (** ** Fuel *)
  Lemma skip_more n : forall m p, (n <= m)%nat -> fst (skipStmt n p) <> Some PStuck -> skipStmt m p = skipStmt n p.
  Proof.
    induction n as [|n IH]; intros m p Hm H; [now elim H|]. destruct m as [|m]; [lia|]. cbn [skipStmt] in *. destruct (scanRune p) as [[p' [|]]|]; try reflexivity.
    destruct (p_tok p'); try reflexivity; apply IH; (lia || exact H).
  Qed.
  Lemma more_fuel p : Parse p <> PStuck -> exists N, forall n, (N <= n)%nat -> ParseWith n p = Parse p.
  Proof.
    unfold Parse, ParseTree, ParseWith. cbv zeta. destruct (scanRune p) as [[p1 [|]]|]; try (intros _; exists 0%nat; reflexivity).
    assert (D : p_tok p1 = KEOF \/ p_tok p1 <> KEOF) by (destruct (p_tok p1); auto; right; discriminate). destruct D as [->|D]; [intros _; exists 0%nat; reflexivity|].
    destruct (unscan p1) as [p2|] eqn:E2; [|intros _; exists 0%nat; intros n _; destruct (p_tok p1); try contradiction; reflexivity].
    set (a := let '(o, p0) := if p_failed p2 then skipStmt (parse_fuel p2) p2 else (None, p2) in
          match o with Some r => r | None => match run (parseWhole (parse_fuel (set_failed p0 false))) (set_failed p0 false) with
            | Done s p => PStmt s p | Failed p => PErr (set_failed p (match p_tok p with KEnd => false | _ => true end)) | Crashed _ => PCrash | Stuck => PStuck end end).
    set (b := fun n => match (if p_failed p2 then skipStmt n p2 else (None, p2)) with
          | (Some r, _) => r
          | (None, p0) => match run (parseWhole n) (set_failed p0 false) with
            | Done s p => PStmt (option_map (deref_stmt (s_buffer (p_scanner p))) s) p | Failed p => PErr (set_failed p (match p_tok p with KEnd => false | _ => true end)) | Crashed _ => PCrash | Stuck => PStuck end end).
    set (f := fun r => match r with PStmt s p => PStmt (option_map (deref_stmt (s_buffer (p_scanner p))) s) p | PErr p => PErr p | PEOF p => PEOF p | PCrash => PCrash | PStuck => PStuck end).
    assert (Q : f a <> PStuck -> exists N, forall n, (N <= n)%nat -> b n = f a).
    { unfold a, b, f. intros H. destruct (p_failed p2).
      - destruct (skipStmt (parse_fuel p2) p2) as [o p3] eqn:Es.
        assert (Hs : forall n, (parse_fuel p2 <= n)%nat -> skipStmt n p2 = (o, p3)).
        { intros n Hn. rewrite <- Es. apply skip_more; [exact Hn|]. rewrite Es. cbn. intros ->. now apply H. }
        destruct o as [r|].
        + exists (parse_fuel p2). intros n Hn. rewrite (Hs n Hn). assert (K : match r with PStmt _ _ => False | _ => True end); [|now destruct r].
          clear - Es. revert Es. generalize (parse_fuel p2). intros n. revert p2. induction n as [|n IH]; intros p2 Es; cbn [skipStmt] in Es; [injection Es as <- _; exact Logic.I|].
          destruct (scanRune p2) as [[p1 [|]]|]; try (injection Es as <- _; exact Logic.I). destruct (p_tok p1); try (injection Es as <- _; exact Logic.I); try discriminate; eapply IH; exact Es.
        + exists (Nat.max (parse_fuel p2) (parse_fuel (set_failed p3 false))). intros n Hn. rewrite (Hs n ltac:(lia)).
          rewrite (fits_run (parseWhole (parse_fuel (set_failed p3 false))) (parseWhole n)); [|apply f_parseWhole; lia|intros Z; rewrite Z in H; now apply H].
          destruct (run _ _); reflexivity.
      - exists (parse_fuel (set_failed p2 false)). intros n Hn.
        rewrite (fits_run (parseWhole (parse_fuel (set_failed p2 false))) (parseWhole n)); [|apply f_parseWhole; lia|intros Z; rewrite Z in H; now apply H].
        destruct (run _ _); reflexivity. }
    intros H. destruct (p_tok p1); try contradiction; exact (Q H).
  Qed.
  Lemma more_fuel_expr p n : ParseExpr p <> Stuck -> (parse_fuel p <= n)%nat -> ParseExprWith n p = ParseExpr p.
  Proof.
    unfold ParseExpr, ParseExprWith. intros H Hn. rewrite (fits_run (parseExpr (parse_fuel p)) (parseExpr n)); [reflexivity|now apply f_parseExpr|]. intros Z. rewrite Z in H. now apply H.
  Qed.
  Lemma fuel_irrelevant input p : parsing input p -> exists N, forall n, (N <= n)%nat -> ParseWith n p = Parse p /\ ParseExprWith n p = ParseExpr p.
  Proof.
    intros H. destruct (reads_all HU input p H) as (H1 & H2 & _). destruct (more_fuel p H1) as (N & HN). exists (Nat.max N (parse_fuel p)). intros n Hn. split; [apply HN; lia|apply more_fuel_expr; [exact H2|lia]].
  Qed.
End Resume.
