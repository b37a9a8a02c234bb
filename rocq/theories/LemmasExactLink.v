(** From lists of tokens to the text: the parser reads every text that has tokens
    which are accepted. *)

From Verif Require Import ModelParser SpecParser SpecTokens SpecIdent SpecAccepts LemmasBase LemmasIdent LemmasScanProps LemmasListRun LemmasParserProps LemmasGrammarLink LemmasCreate LemmasSound LemmasSoundDeref LemmasSoundWords LemmasSoundExpr LemmasSoundStmt LemmasSoundLink LemmasSoundParseExpr LemmasExact LemmasExactExpr LemmasExactStmt LemmasExactBytes LemmasUnique.

Section ExactLink.
  Context {X : FloatLib} {L : CaseLib} {U : RuneLib} {B : BufLib} {P : PrintLib} (HU : RuneLib_scan U).

  Section Lock.
    Variables (input : list Z) (T : idtable) (vals : list tokval) (left : list Z) (base : list sctx).

    (** The tokens still to be scanned. *)
    Inductive toread : list Z -> list tokval -> list tok -> Prop :=
    | to_none : toread left [] []
    | to_tok g w v f l k vs ts : gap g -> lexeme w v f l -> token_read T v k -> toread l vs ts -> toread (g ++ w ++ f) (v :: vs) (k :: ts)
    | to_eof g e : gap g -> no_token e -> left = [] -> toread (g ++ e) [] [KEOF].

    Lemma read_same v k k' : token_read T v k -> token_read T v k' -> same_tok k k'.
    Proof.
      intros H H'. destruct H as [v k H|b l].
      - inversion H' as [v' k2 H2|b l]; subst; [|inversion H]. rewrite (token_fun T v k k' H H2). constructor.
      - inversion H' as [v' k2 H2|b' l']; subst; [inversion H2|constructor].
    Qed.

    Record tied (past : list tok) (t : tape) (pc : list sctx) (vs : list tokval) (ts : list tok) : Prop := {
      td_past : t_past t = pc ++ base;
      td_toks : map tok_of pc = past;
      td_toread : toread (rest (t_scanner t)) vs ts;
      td_scanning : scanning input (t_scanner t);
      td_real : real (s_ids (t_scanner t));
      td_named : Forall (named (s_ids (t_scanner t))) (past ++ map tok_of (t_ahead t));
      td_known : forall n q, In (TName n q) vals -> knows (s_ids (t_scanner t)) n q \/ In (TName n q) vs
    }.

    Lemma recount {A} r over ts n n' :
      (exists (a : A) t' past' pc' vs' pre ts', r = Done a t' /\ tied past' t' pc' vs' ts' /\ (length (t_ahead t') + length ts' = over)%nat /\ ts = pre ++ ts' /\
        (length past' + length (t_ahead t') = n + length pre)%nat) -> n = n' ->
      exists a t' past' pc' vs' pre ts', r = Done a t' /\ tied past' t' pc' vs' ts' /\ (length (t_ahead t') + length ts' = over)%nat /\ ts = pre ++ ts' /\
        (length past' + length (t_ahead t') = n' + length pre)%nat.
    Proof. now intros H <-. Qed.
    Lemma exact_step {A} over (g : act A) : forall past t pc vs ts, tied past t pc vs ts -> ends T (t_run g t) ->
      (forall ts', same_toks ts ts' -> lwp (number T) (idString T) over g past (map tok_of (t_ahead t) ++ ts')) ->
      exists a t' past' pc' vs' pre ts', t_run g t = Done a t' /\ tied past' t' pc' vs' ts' /\ (length (t_ahead t') + length ts' = over)%nat /\ ts = pre ++ ts' /\
        (length past' + length (t_ahead t') = length past + length (t_ahead t) + length pre)%nat.
    Proof.
      induction g as [x| | | |kk IH|kk IH|kk IH|s kk IH|i kk IH|l kk IH|kk IH]; intros past t pc vs ts K E HW; try (now specialize (HW ts (same_refl ts))).
      - exists x, t, past, pc, vs, [], ts. split; [reflexivity|]. split; [exact K|]. split; [|split; [reflexivity|cbn [length]; lia]]. specialize (HW ts (same_refl ts)). cbn [lwp] in HW. now rewrite app_length, map_length in HW.
      - (* scan *) destruct K as [K1 K2 K4 K5 K6 K7 K8]. cbn [t_run] in *. unfold t_next in *.
        destruct (t_ahead t) as [|c ac] eqn:EA.
        + cbn [map app] in HW, K7. destruct ts as [|k ts]; [now specialize (HW [] (same_refl []))|].
          inversion K4 as [|g w v f l k' vs' ts' G Hx Hk Hu EQ1|g e G Hn Hl EQ1]; subst.
          * destruct (complete HU _ _ (nth 2 (t_past t) c_zero) _ _ _ _ _ K5 (eq_sym EQ1) G Hx) as (s' & c' & ES & R' & Hh). rewrite ES in *.
            destruct (not_error _ _ _ _ _ _ _ Hx Hh) as [_ NE0].
            assert (NE : match tok_of c' with KError true => true | _ => false end = false) by (destruct (tok_of c') as [| |[|]| | | | | | | |] eqn:EK; try reflexivity; now contradiction (NE0 true)).
            rewrite NE in *. set (t1 := {| t_past := c' :: t_past t; t_ahead := []; t_scanner := s' |}) in *.
            pose proof (Scan_grown HU _ _ _ _ _ K5 K6 ES) as GS. pose proof (sc_scan _ _ _ _ _ K5 ES) as S'.
            pose proof (ends_grown HU input T (kk (t_tok t1)) t1 S' (proj1 GS) E) as GT. cbn [t1 t_scanner] in GT.
            destruct (token_from T _ _ _ _ _ _ _ K6 Hx Hh GT) as (HK & HN & _). change (t_tok t1) with (tok_of c') in *.
            destruct (IH (tok_of c') (tok_of c' :: map tok_of pc) t1 (c' :: pc) vs' ts) as (a & t' & past' & pc' & vs2 & pre & ts2 & R1 & R2 & R3 & R4 & R5).
            -- constructor; cbn [t1 t_past t_ahead t_scanner map app]; auto.
               ++ now rewrite K1.
               ++ now rewrite R'.
               ++ exact (proj1 GS).
               ++ rewrite app_nil_r in *. constructor; [exact HN|]. eapply named_grown; [exact (proj2 GS)|exact K7].
               ++ intros n q Hin. destruct (K8 n q Hin) as [Kn|[->|Kn]]; [left; now apply (grown_knows _ _ n q K6 GS)| |now right].
                  left. cbn [holds] in Hh. destruct Hh as (_ & -> & _). now apply ID_knows.
            -- exact E.
            -- intros ts' Hs. cbn [t1 t_ahead map app]. apply (HW (tok_of c' :: ts')). constructor; [exact (read_same _ _ _ Hk HK)|exact Hs].
            -- exists a, t', past', pc', vs2, (k :: pre), ts2. rewrite R4. do 3 (split; [assumption || reflexivity|]). split; [reflexivity|]. cbn [t1 t_ahead length] in *. try rewrite <- K2. lia.
          * destruct (dropped HU _ _ (nth 2 (t_past t) c_zero) _ _ K5 (eq_sym EQ1) G Hn) as (s' & ES & R' & I'). rewrite ES in *.
            assert (HK : tok_of (set_token (nth 2 (t_past t) c_zero) (-1)) = KEOF) by reflexivity. rewrite HK in *.
            set (t1 := {| t_past := set_token (nth 2 (t_past t) c_zero) (-1) :: t_past t; t_ahead := []; t_scanner := s' |}) in *.
            change (t_tok t1) with KEOF in *.
            destruct (IH KEOF (KEOF :: map tok_of pc) t1 (set_token (nth 2 (t_past t) c_zero) (-1) :: pc) [] []) as (a & t' & past' & pc' & vs2 & pre & ts2 & R1 & R2 & R3 & R4 & R5).
            -- constructor; cbn [t1 t_past t_ahead t_scanner map app]; auto.
               ++ now rewrite K1.
               ++ rewrite R', <- Hl. constructor.
               ++ exact (sc_scan _ _ _ _ _ K5 ES).
               ++ now rewrite I'.
               ++ rewrite app_nil_r in *. rewrite I'. constructor; [exact Logic.I|exact K7].
               ++ rewrite I'. exact K8.
            -- exact E.
            -- intros ts' Hs. inversion Hs; subst. cbn [t1 t_ahead map app]. exact (HW [KEOF] (same_refl _)).
            -- exists a, t', past', pc', vs2, (KEOF :: pre), ts2. rewrite R4. do 3 (split; [assumption || reflexivity|]). split; [reflexivity|]. cbn [t1 t_ahead length] in *. try rewrite <- K2. lia.
        + cbn [map app] in HW, K7. set (t1 := {| t_past := c :: t_past t; t_ahead := ac; t_scanner := t_scanner t |}) in *.
          change (t_tok t1) with (tok_of c) in *. refine (recount _ _ _ _ _ (IH (tok_of c) (tok_of c :: past) t1 (c :: pc) vs ts _ E HW) _); [|cbn [t1 t_ahead length]; lia]. constructor; cbn [t1 t_past t_ahead t_scanner map app]; auto.
          * now rewrite K1.
          * now rewrite K2.
          * apply Forall_app in K7 as [K7 K7']. inversion K7'; subst. constructor; [assumption|]. apply Forall_app. now split.
      - (* un-read *) destruct K as [K1 K2 K4 K5 K6 K7 K8]. destruct past as [|k past]; [now specialize (HW ts (same_refl ts))|]. cbn [t_run] in *. unfold t_back in *.
        destruct pc as [|c pc]; [discriminate|]. cbn [map] in K2. injection K2 as <- <-. rewrite K1 in *. cbn [app] in *.
        refine (recount _ _ _ _ _ (IH (map tok_of pc) {| t_past := pc ++ base; t_ahead := c :: t_ahead t; t_scanner := t_scanner t |} pc vs ts _ E HW) _); [|cbn [t_ahead length]; lia]. constructor; cbn [t_past t_ahead t_scanner map app]; auto.
        inversion K7; subst. apply Forall_app in H2 as [H2 H2']. apply Forall_app. split; [exact H2|]. now constructor.
      - (* the current token *) destruct past as [|k past]; [now specialize (HW ts (same_refl ts))|]. cbn [t_run] in *. pose proof (td_toks _ _ _ _ _ K) as K2. pose proof (td_past _ _ _ _ _ K) as K1.
        destruct pc as [|c pc]; [discriminate|]. cbn [map] in K2. injection K2 as <- K2. unfold t_tok in *. rewrite K1 in *. cbn [app hd] in *.
        apply (IH _ _ _ _ _ _ K E). exact HW.
      - (* registering a name *) cbn [t_run] in *. destruct K as [K1 K2 K4 K5 K6 K7 K8].
        pose proof (ID_grown _ s false K6) as G. pose proof (ID_same (s_ids (t_scanner t)) T s false K6) as SM.
        destruct (ID (s_ids (t_scanner t)) s false) as [ids j] eqn:EI. cbn [fst snd] in *.
        set (t1 := t_set t (set_ids (t_scanner t) ids)) in *.
        pose proof (ends_grown HU input T (kk j) t1 (sc_ids _ _ _ K5) (proj1 G) E) as GT. cbn [t1 t_set t_scanner] in GT. rewrite set_ids_ids in GT. specialize (SM GT).
        apply (IH j past t1 pc vs ts); [|exact E|].
        + constructor; cbn [t1 t_set t_past t_ahead t_scanner]; auto.
          * now constructor.
          * rewrite set_ids_ids. apply G.
          * rewrite set_ids_ids. eapply named_grown; [exact (proj2 G)|exact K7].
          * rewrite set_ids_ids. intros n q Hin. destruct (K8 n q Hin) as [Kn|Kn]; [left; now apply (grown_knows _ _ n q K6 G)|now right].
        + intros ts' Hs. specialize (HW ts' Hs). cbn [lwp] in HW. unfold number in HW. rewrite SM in HW. exact HW.
      - (* the text of a name *) pose proof (proj1 (HW ts (same_refl ts))) as EX. cbn [t_run] in *. pose proof K as [K1 K2 K4 K5 K6 K7 K8].
        pose proof (ends_grown HU input T (kk _) t K5 K6 E) as GT.
        apply existsb_exists in EX. destruct EX as (k & Hin & Hk). destruct k as [| | |j|?|?|?|?|?|?|?]; try discriminate. cbn in Hk. apply Z.eqb_eq in Hk. subst j.
        apply Forall_app in K7 as [K7 K7']. assert (N : named (s_ids (t_scanner t)) (KIdent i)) by (rewrite Forall_forall in K7; exact (K7 _ Hin)). destruct N as [m N].
        rewrite (name_same _ _ _ _ K6 GT N) in *. apply (IH _ _ _ _ _ _ K E). intros ts' Hs. exact (proj2 (HW ts' Hs)).
      - (* bytes *) cbn [t_run] in *. apply (IH _ _ _ _ _ _ K E). intros ts' Hs. exact (HW ts' Hs _).
    Qed.
  End Lock.

  Lemma tokens_toread T left text vs l vs2 ts2 : tokens text vs l -> toread T left l vs2 ts2 -> forall ts, Forall2 (token_read T) vs ts ->
    toread T left text (vs ++ vs2) (ts ++ ts2).
  Proof.
    induction 1 as [l|g w v f l vs l' G Hx Ht IH]; intros K ts F; inversion F; subst; [exact K|]. cbn [app]. econstructor; eauto.
  Qed.
  Lemma statement_toread T text vs left ts : statement_text text vs left -> Forall2 (token_read T) vs ts ->
    exists k vs', (k = KEnd \/ k = KEOF) /\ toread T left text vs' (ts ++ [k]) /\ (forall n q, In (TName n q) vs <-> In (TName n q) vs').
  Proof.
    intros [t v l H|t v g e H G N] F.
    - exists KEnd, (v ++ [TEnd]). split; [now left|]. split.
      + rewrite <- (app_nil_r (v ++ [TEnd])), <- (app_nil_r (ts ++ [KEnd])). eapply tokens_toread; [exact H|constructor|]. apply Forall2_app; [exact F|]. constructor; [do 2 constructor|constructor].
      + intros n q. rewrite in_app_iff. split; [auto|]. intros [K|[K|[]]]; [exact K|discriminate].
    - exists KEOF, v. split; [now right|]. split; [|tauto]. rewrite <- (app_nil_r v). eapply tokens_toread; [exact H| |exact F]. now constructor.
  Qed.
  Lemma toread_length T left text vs ts : toread T left text vs ts -> (length ts <= 1 + length text)%nat.
  Proof.
    induction 1 as [|g w v f l k vs ts G Hx Hk Hu IH|g e G N]; cbn; try lia. rewrite !app_length.
    assert (W : w <> []) by (destruct Hx; try discriminate; match goal with H : sign_text _ _ |- _ => destruct H end; try discriminate; match goal with |- ?x <> [] => destruct ds; [contradiction|discriminate] | |- [] ++ ?x ++ _ <> [] => destruct x; [contradiction|discriminate] end).
    assert (L' : (length l <= length f)%nat).
    { destruct Hx; try lia; match goal with H : quote_ends _ _ |- _ => destruct H as (sp & -> & _); rewrite app_length; lia end. }
    destruct w; [contradiction|]. cbn. lia.
  Qed.
  Lemma accepts_nonempty i nm s ts : accepts i nm s ts -> ts <> [].
  Proof. destruct 1; discriminate. Qed.
  Lemma same_end ts k ts' : k = KEnd \/ k = KEOF -> same_toks (ts ++ [k]) ts' -> exists ts2, ts' = ts2 ++ [k] /\ same_toks ts ts2.
  Proof.
    intros Hk H. apply Forall2_app_inv_l in H as (a & b & Ha & Hb & ->). inversion Hb as [|? k' ? ? S N]; subst. inversion N; subst. exists a. split; [|exact Ha].
    destruct Hk as [->| ->]; inversion S; reflexivity.
  Qed.
  Lemma same_length ts ts' : same_toks ts ts' -> length ts' = length ts.
  Proof. intros H. symmetry. induction H; cbn; congruence. Qed.

  Lemma parse_exact_step input p t vs left : in_step input p t -> p_unscanned p = 0%nat -> p_failed p = false -> real (s_ids (p_scanner p)) ->
    statement_text (rest (p_scanner p)) vs left ->
    exists T, real T /\ later (s_ids (p_scanner p)) T /\ (forall n q, In (TName n q) vs -> knows T n q) /\
      (vs <> [] -> forall s p', Parse p = PStmt (Some s) p' -> (forall n q, In (TName n q) vs -> knows (s_ids (p_scanner p')) n q) -> s_ids (p_scanner p') = T) /\
      forall s, text_accepts T vs s ->
      exists s' p', Parse p = PStmt (Some s') p' /\ copies s' = false /\ s_ids (p_scanner p') = T /\ rest (p_scanner p') = left /\ p_unscanned p' = 0%nat /\ p_failed p' = false.
  Proof.
    intros HS Hu Hf R ST. pose proof (parse_same HU _ _ _ HS) as SM. pose proof HS as ((O1 & O2 & O3 & _) & S1 & _).
    rewrite O1 in *. rewrite O2 in Hu. apply length_zero_iff_nil in Hu. rewrite Hf in SM.
    destruct (first_token _ _ _ ST) as [->|(g & w & v & f & l & vs' & ET & -> & G & Hx)].
    { exists (s_ids (t_scanner t)). split; [exact R|]. split; [apply grown_later; [exact R|now apply grown_refl]|]. split; [now intros|]. split; [now intros []|].
      intros s (ts & F & Sy). inversion F; subst. now apply accepts_nonempty in Sy. }
    destruct (complete HU _ _ (nth 2 (t_past t) c_zero) _ _ _ _ _ S1 ET G Hx) as (s1 & c & ES & R1 & Hh). destruct (not_error _ _ _ _ _ _ _ Hx Hh) as [NEOF NE].
    set (t1 := {| t_past := t_past t; t_ahead := [c]; t_scanner := s1 |}).
    assert (EP : t_parse false t = match t_run (parseWhole (t_fuel t1)) t1 with
                    | Done s t => TStmt s t | Failed t => TFailed t | Crashed t => TCrash t | Stuck => TStuck end).
    { unfold t_parse, t_next. rewrite Hu, ES. destruct (match tok_of c with KError true => true | _ => false end) eqn:EE.
      { destruct (tok_of c) as [| |[|]| | | | | | | |]; try discriminate. now contradiction (NE true). }
      unfold t_tok. cbn [t_past hd t_back t_ahead t_scanner]. fold t1. destruct (tok_of c); [contradiction|reflexivity..]. }
    rewrite EP in SM. clear EP. pose proof (Scan_grown HU _ _ _ _ _ S1 R ES) as GS. pose proof (sc_scan _ _ _ _ _ S1 ES) as S1'.
    pose proof (run_grown HU input (parseWhole (t_fuel t1)) t1 S1' (proj1 GS)) as RG.
    assert (HO : exists T0, grown (s_ids s1) T0 /\ (forall T, grown T0 T -> ends T (t_run (parseWhole (t_fuel t1)) t1)) /\
        forall o t', t_run (parseWhole (t_fuel t1)) t1 = Done o t' -> T0 = s_ids (t_scanner t')).
    { destruct (t_run (parseWhole (t_fuel t1)) t1) as [o t'|t'|t'|].
      - exists (s_ids (t_scanner t')). split; [exact RG|]. split; [intros T H; exact H|]. now intros o' t'' [= <- <-].
      - exists (s_ids (t_scanner t')). split; [exact RG|]. split; [intros T H; exact H|discriminate].
      - exists (s_ids (t_scanner t')). split; [exact RG|]. split; [intros T H; exact H|discriminate].
      - destruct (Parse p); contradiction. }
    destruct HO as (T0 & G0 & HE & HD). destruct (register_spec (v :: vs') T0 (proj1 G0)) as [GR KR]. set (T := register (v :: vs') T0) in *.
    assert (GT : grown (s_ids s1) T) by (eapply grown_trans; eassumption). specialize (HE T GR).
    exists T. split; [apply GR|]. split; [apply grown_later; [exact R|eapply grown_trans; eassumption]|]. split; [exact KR|]. split.
    { intros _ s p' EPa KN. rewrite EPa in SM. destruct (t_run (parseWhole (t_fuel t1)) t1) as [o t'|t'|t'|]; try contradiction. destruct SM as (_ & HS' & _).
      pose proof HS' as ((O1' & _) & _). rewrite O1' in *. rewrite <- (HD _ _ eq_refl) in *. symmetry. now apply register_known. }
    intros s (ts & F & Sy). destruct (statement_toread T _ _ _ _ ST F) as (k & vs2 & Hk & UN & IV).
    inversion F as [|? k1 ? ts1 F1 F2]; subst. cbn [app] in UN. inversion UN as [|g' w' v' f' l' k' vs'' ts' G' Hx' Hk' Hu' EQ|g' e' G' N' Hl' EQ]; subst.
    2:{ destruct ts1; discriminate. }
    (* the token read is the first one of the list *)
    destruct (complete HU _ _ (nth 2 (t_past t) c_zero) _ _ _ _ _ S1 (eq_sym EQ) G' Hx') as (s2 & c2 & ES2 & R2 & Hh2). rewrite ES in ES2. injection ES2 as <- <-.
    destruct (token_from T _ _ _ _ _ _ _ R Hx' Hh2 GT) as (HK & HN & _).
    assert (HEw : ends T (t_run (wholeStmt (t_fuel t1)) t1)).
    { unfold wholeStmt. rewrite t_run_bind. destruct (t_run (parseWhole (t_fuel t1)) t1) as [[o|] t'|t'|t'|]; try exact HE. destruct (copies o); exact HE. }
    destruct (exact_step input T (v' :: vs'') left (t_past t) 0 (wholeStmt (t_fuel t1)) [] t1 [] vs'' (ts1 ++ [k])) as (o & t' & past' & pc' & vs3 & pre & ts3 & ER & LK & LN & _).
    - constructor; cbn [t1 t_past t_ahead t_scanner map app].
      + reflexivity.
      + reflexivity.
      + now rewrite R2.
      + exact S1'.
      + apply GS.
      + constructor; [exact HN|constructor].
      + intros n q [->|H]; [left|now right]. cbn [holds] in Hh2. destruct Hh2 as (_ & -> & _). now apply ID_knows.
    - exact HEw.
    - intros ts' Hs. destruct (same_end _ _ _ Hk Hs) as (ts2 & -> & Hs2). cbn [t1 t_ahead map app].
      apply (lwp_statement (number T) (idString T) s (tok_of c :: ts2) (t_fuel t1) k []); [| |exact Hk].
      + apply (same_accepts _ _ _ _ _ Sy). constructor; [exact (read_same T _ _ _ Hk' HK)|exact Hs2].
      + apply toread_length in Hu'. rewrite app_length in Hu'. apply same_length in Hs2. cbn [length] in *. pose proof (LemmasScanAll.rest_length s1) as RL. rewrite R2 in RL. unfold t_fuel. cbn [t1 t_scanner t_ahead length]. lia.
    - unfold wholeStmt in ER. rewrite t_run_bind in ER. destruct (t_run (parseWhole (t_fuel t1)) t1) as [[s0|] t2|t2|t2|] eqn:EW; try discriminate. destruct (copies s0) eqn:EC; [discriminate|]. injection ER as <- ->.
      destruct (Parse p) as [o p'|p'|p'| |]; try contradiction. destruct SM as (-> & HS' & Hf'). cbn [option_map].
      eexists. exists p'. pose proof HS' as ((O1' & O2' & _) & _). destruct LK as [_ _ L4 _ L6 _ L8].
      destruct (t_ahead t') eqn:EA; [|discriminate]. destruct ts3; [|discriminate]. inversion L4; subst. split; [reflexivity|split; [|split; [|split; [|split]]]].
      + destruct s0; try reflexivity; discriminate EC.
      + rewrite O1'. rewrite <- (HD _ _ eq_refl). symmetry. apply register_known. intros n q Hin. rewrite (HD _ _ eq_refl). apply IV in Hin. destruct (L8 n q Hin) as [K|[]]. exact K.
      + now rewrite O1'.
      + now rewrite O2'.
      + exact Hf'.
  Qed.

  Lemma accepts_no_end T vs s : text_accepts T vs s -> ~ In TEnd vs.
  Proof.
    intros (ts & F & A) Hin. apply accepts_plain in A. induction F as [|v k vs ts K F IH]; [contradiction|]. inversion A; subst. destruct Hin as [->|Hin]; [|now apply IH].
    inversion K as [v k0 K1|]; subst. inversion K1; subst. contradiction.
  Qed.
  Lemma accepts_knows T vs s n q : text_accepts T vs s -> In (TName n q) vs -> knows T n q.
  Proof.
    intros (ts & F & _) Hin. induction F as [|v k vs ts K F IH]; [contradiction|]. destruct Hin as [->|Hin]; [|now apply IH].
    inversion K as [v k0 K1|]; subst. unfold knows. inversion K1; subst; match goal with H : ID _ _ _ = _ |- _ => now rewrite H end.
  Qed.
  Lemma parse_only input p vs left s p' : parsing input p -> p_unscanned p = 0%nat -> p_failed p = false -> real (s_ids (p_scanner p)) ->
    statement_text (rest (p_scanner p)) vs left -> ~ In TEnd vs -> Parse p = PStmt (Some s) p' -> copies s = false ->
    text_accepts (s_ids (p_scanner p')) vs s.
  Proof.
    intros HP Hu Hf R ST NE EP NC. destruct (parse_sound HU _ _ _ _ HP Hu Hf R EP NC) as (vs' & left' & ST' & A & _).
    destruct (parsing_in_step HU _ _ HP) as [t HS]. pose proof HS as ((O1 & _) & S1 & _). rewrite O1 in *.
    destruct (scanner_unique HU _ _ _ _ _ _ S1 ST' ST (accepts_no_end _ _ _ A) NE) as [F _]. destruct A as (ts & Fs & A). exists ts. split; [|exact A]. eapply same_reads; eassumption.
  Qed.

  Lemma parse_exact input p vs left : parsing input p -> p_unscanned p = 0%nat -> p_failed p = false -> real (s_ids (p_scanner p)) ->
    statement_text (rest (p_scanner p)) vs left -> ~ In TEnd vs ->
    exists T, real T /\ later (s_ids (p_scanner p)) T /\ (forall n q, In (TName n q) vs -> knows T n q) /\
      ((exists s, text_accepts T vs s) <-> (exists s p', Parse p = PStmt (Some s) p' /\ copies s = false)) /\
      forall s p', Parse p = PStmt (Some s) p' -> copies s = false ->
        text_accepts T vs s /\ s_ids (p_scanner p') = T /\ rest (p_scanner p') = left /\ p_unscanned p' = 0%nat /\ p_failed p' = false.
  Proof.
    intros HP Hu Hf R ST NE. destruct (parsing_in_step HU _ _ HP) as [t HS]. destruct (parse_exact_step input p t vs left HS Hu Hf R ST) as (T & RT & LT & KT & ET & AT).
    assert (ON : forall s p', Parse p = PStmt (Some s) p' -> copies s = false -> text_accepts T vs s).
    { intros s p' EP NC. pose proof (parse_only _ _ _ _ _ _ HP Hu Hf R ST NE EP NC) as A. assert (NN : vs <> []).
      { intros ->. destruct A as (ts & F & A). inversion F; subst. now apply accepts_nonempty in A. }
      rewrite <- (ET NN s p' EP); [exact A|]. intros n q. exact (accepts_knows _ _ _ n q A). }
    exists T. split; [exact RT|]. split; [exact LT|]. split; [exact KT|]. split; [split|].
    - intros [s A]. destruct (AT s A) as (s' & p' & E & C & _). now exists s', p'.
    - intros (s & p' & E & C). exists s. now apply (ON s p').
    - intros s p' E C. pose proof (ON s p' E C) as A. split; [exact A|]. destruct (AT s A) as (s' & p2 & E2 & _ & K). rewrite E in E2. injection E2 as <- <-. exact K.
  Qed.

  (** No token is lost. *)
  Lemma pairs_length {A C} (R : A -> C -> Prop) l l' : Forall2 R l l' -> length l = length l'.
  Proof. induction 1; cbn; congruence. Qed.
  Lemma wpl_count {A} i nm (g : act A) : forall p a (Q : A -> list tok -> list tok -> Prop), wpl i nm g p a Q ->
    wpl i nm g p a (fun x p' a' => Q x p' a' /\ (length p' + length a' = length p + length a)%nat).
  Proof.
    induction g as [x| | | |k IH|k IH|k IH|s k IH|j k IH|l k IH|k IH]; intros p a Q; cbn [wpl]; try tauto.
    - intros [H1 H2]. split; [exact H1|]. destruct a as [|t a]; [exact H2|]. intros Hp. eapply wpl_mono; [|apply IH, H2, Hp]. intros x p' a' [K E]. split; [exact K|cbn [length] in *; lia].
    - destruct p as [|t p]; [tauto|]. intros H. eapply wpl_mono; [|apply IH, H]. intros x p' a' [K E]. split; [exact K|cbn [length] in *; lia].
    - destruct p; [tauto|]. apply IH.
    - apply IH.
    - intros [H1 H]. split; [exact H1|]. now apply IH.
    - intros H b. now apply IH.
  Qed.

  Lemma expr_exact input p vs left : parsing input p -> p_unscanned p = 0%nat -> real (s_ids (p_scanner p)) ->
    statement_text (rest (p_scanner p)) vs left ->
    exists T, real T /\ later (s_ids (p_scanner p)) T /\ (forall n q, In (TName n q) vs -> knows T n q) /\
      forall e, expr_accepts T vs e -> exists e' p', ParseExpr p = Done e' p' /\ expr_accepts T vs e' /\ s_ids (p_scanner p') = T.
  Proof.
    intros HP Hu R ST. destruct (parsing_in_step HU _ _ HP) as [t HS]. pose proof (proj1 (in_step_st _ _ _) HS) as [HS1 HS2].
    pose proof (ParseExpr_sound HU input true (no_bad input) p t HS1 HS2) as SM. pose proof HS as ((O1 & O2 & O3 & _) & S1 & _).
    rewrite O1 in *. rewrite O2 in Hu. apply length_zero_iff_nil in Hu.
    pose proof (run_grown HU input (parseExpr (t_fuel t)) t S1 R) as RG.
    assert (HO : exists T0, grown (s_ids (t_scanner t)) T0 /\ (forall T, grown T0 T -> ends T (t_run (parseExpr (t_fuel t)) t)) /\
        forall o t', t_run (parseExpr (t_fuel t)) t = Done o t' -> T0 = s_ids (t_scanner t')).
    { destruct (t_run (parseExpr (t_fuel t)) t) as [o t'|t'|t'|].
      - exists (s_ids (t_scanner t')). split; [exact RG|]. split; [intros T H; exact H|]. now intros o' t'' [= <- <-].
      - exists (s_ids (t_scanner t')). split; [exact RG|]. split; [intros T H; exact H|discriminate].
      - exists (s_ids (t_scanner t')). split; [exact RG|]. split; [intros T H; exact H|discriminate].
      - destruct (ParseExpr p); contradiction. }
    destruct HO as (T0 & G0 & HE & HD). destruct (register_spec vs T0 (proj1 G0)) as [GR KR]. set (T := register vs T0) in *.
    specialize (HE T GR). exists T. split; [apply GR|]. split; [apply grown_later; [exact R|eapply grown_trans; eassumption]|]. split; [exact KR|].
    intros e (ts & F & Sy). destruct (statement_toread T _ _ _ _ ST F) as (k & vs2 & Hk & UN & IV).
    destruct (exact_step input T vs2 left (t_past t) 1 (abind (parseExpr (t_fuel t)) ARet) [] t [] vs2 (ts ++ [k])) as (e' & t' & past' & pc' & vs3 & pre & ts3 & ER & LK & LN & LP & LQ).
    - constructor; try (rewrite Hu; cbn [map app]); auto.
    - rewrite t_run_bind. destruct (t_run (parseExpr (t_fuel t)) t); exact HE.
    - intros ts' Hs. destruct (same_end _ _ _ Hk Hs) as (ts2 & -> & Hs2). rewrite Hu. cbn [map app]. apply (lwp_expr (number T) (idString T) e); [now apply (same_whole _ _ _ _ _ Sy)| |exact Hk].
      apply toread_length in UN. rewrite app_length in UN. apply same_length in Hs2. cbn [length] in UN. pose proof (LemmasScanAll.rest_length (t_scanner t)) as RL. unfold t_fuel. lia.
    - rewrite t_run_bind in ER. destruct (t_run (parseExpr (t_fuel t)) t) as [e0 t2|t2|t2|] eqn:EW; try discriminate. injection ER as -> ->.
      destruct (ParseExpr p) as [e2 p'|p'|p'|]; try contradiction. destruct SM as (-> & [(O1' & _) _] & _).
      assert (ET : s_ids (t_scanner t') = T).
      { rewrite <- (HD _ _ eq_refl). symmetry. apply register_known. intros n q Hin. rewrite (HD _ _ eq_refl). destruct LK as [_ _ L4 _ L6 _ L8]. apply IV in Hin. destruct (L8 n q Hin) as [K|K]; [exact K|].
        exfalso. assert (KK : ts3 = [] \/ ts3 = [k]).
        { destruct ts3 as [|k3 [|? ?]]; [now left| |cbn [length] in LN; lia]. right. apply app_inj_tail in LP as [_ ->]. reflexivity. }
        destruct KK as [->| ->]; inversion L4; subst; try contradiction.
        destruct K as [->|K]; [|match goal with H : toread _ _ _ _ [] |- _ => inversion H; subst; contradiction end].
        match goal with H : token_read _ (TName _ _) _ |- _ => inversion H as [? ? HZ|]; subst; inversion HZ; subst; destruct Hk; discriminate end. }
      eexists. exists p'. split; [reflexivity|]. split; [|now rewrite O1'].
      destruct (follow HU input T (t_past t) (parseExpr (t_fuel t)) t []
        (fun fut x q a => (exists ts0, fut = ts0 ++ a /\ a_whole (number T) (idString T) x ts0) /\ (length q + length a = length fut)%nat) e' t')
        as (ws & new & pc2 & F1 & F2 & _ & (ts0 & F3 & F4) & F5).
      { reflexivity. }
      { exact S1. }
      { exact R. }
      { rewrite Hu. constructor. }
      { rewrite Hu. constructor. }
      { intros fut. rewrite Hu. cbn [map app]. eapply wpl_mono; [|apply wpl_count, (S_expr (number T) (idString T) (t_fuel t) [] fut Logic.I)].
        intros x q a [(ts0 & K1 & _ & _ & K2) K3]. split; [exists ts0; split; [exact K1|exact K2]|exact K3]. }
      { exact EW. }
      { rewrite ET. apply grown_refl, GR. }
      destruct (scans_tokens _ _ _ _ _ _ _ F1 F3 (pl_whole _ _ _ _ F4)) as (ws' & mid & ws'' & W1 & W2 & W3).
      assert (PE : forall us zs, Forall2 (token_read T) us zs -> Forall LemmasSoundWords.plain zs -> ~ In TEnd us).
      { intros us zs FF PP Hin. induction FF as [|v z us zs K FF IH]; [contradiction|]. inversion PP; subst. destruct Hin as [->|Hin]; [|now apply IH].
        inversion K as [v0 k0 K1|]; subst. inversion K1; subst. contradiction. }
      pose proof (text_parts _ _ _ ST (PE _ _ F (pl_whole _ _ _ _ Sy))) as PT.
      destruct (tokens_parts HU _ _ _ W1 (PE _ _ W2 (pl_whole _ _ _ _ F4)) _ _ _ _ S1 eq_refl PT) as (vs1 & vs2' & -> & FS & _).
      assert (vs2' = []) as ->.
      { apply length_zero_iff_nil. destruct LK as [J1 J2 _ _ _ _ _]. assert (EL : length pc2 = length pc').
        { apply (f_equal (@length _)) in J1. apply (f_equal (@length _)) in F2. rewrite app_length in J1, F2. lia. }
        apply (f_equal (@length _)) in LP, F3, J2. rewrite Hu in LQ. apply pairs_length in F, FS, W2. rewrite !app_length in *. rewrite ?map_length in *. cbn [length] in *. lia. }
      rewrite app_nil_r in *. exists ts0. split; [eapply same_reads; eassumption|now apply deref_a_whole].
  Qed.
End ExactLink.
