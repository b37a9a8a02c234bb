(** From lists of tokens to the text: the tokens that were read when the parser
    returns a statement are those of the text. *)

From Verif Require Import ModelParser SpecParser SpecTokens SpecIdent SpecAccepts LemmasBase LemmasIdent LemmasScanProps LemmasListRun LemmasParserProps LemmasGrammarLink LemmasCreate LemmasSound LemmasSoundDeref LemmasSoundWords LemmasSoundStmt.

Section SoundLink.
  Context {X : FloatLib} {L : CaseLib} {U : RuneLib} {B : BufLib} {P : PrintLib} (HU : RuneLib_scan U).

  Section Follow.
    Variable input : list Z.
    Variable T : idtable.
    Variable base : list sctx.

    (** The tokens scanned from a text up to some rest; among them errors, and the
        end of the file. *)
    Inductive scans : list Z -> list tokval -> list tok -> list Z -> Prop :=
    | sn_none l : scans l [] [] l
    | sn_tok g w v f l k vs ts left : gap g -> lexeme w v f l -> token_read T v k -> scans l vs ts left -> scans (g ++ w ++ f) (v :: vs) (k :: ts) left
    | sn_eof g e vs ts left : gap g -> no_token e -> scans [] vs ts left -> scans (g ++ e) vs (KEOF :: ts) left
    | sn_bad l l' b vs ts left : scans l' vs ts left -> scans l vs (KError b :: ts) left.

    (** Only the last token scanned may be the end of the statement. *)
    Definition tidy (l : list tok) : Prop := Forall (fun t => over t = false) (removelast l).
    Lemma tidy_more past k : clean past -> tidy (rev past) -> tidy (rev past ++ [k]).
    Proof.
      intros C H. unfold tidy in *. rewrite removelast_last. destruct past as [|t past]; [constructor|]. cbn [rev] in *. rewrite removelast_last in H.
      apply Forall_app. split; [exact H|]. constructor; [exact C|constructor].
    Qed.

    Lemma token_from w v f l t s c : real t -> lexeme w v f l -> holds t v s c -> grown (s_ids s) T ->
      token_read T v (tok_of c) /\ named (s_ids s) (tok_of c) /\ proper (tok_of c).
    Proof.
      intros R Hx Hh G.
      assert (K : (exists k, token_in T v k /\ proper k) -> token_read T v (tok_of c) /\ named (s_ids s) (tok_of c) /\ proper (tok_of c)).
      { intros (k & Hk & Hp). destruct (token_held T _ _ _ _ _ _ _ _ R Hx Hh G Hk) as [-> HN]. split; [now constructor|now split]. }
      destruct v as [|n q|b|b|i|p|i|r]; try (apply K; eexists; split; [constructor|exact Logic.I]).
      - cbn [holds] in Hh. destruct Hh as (H1 & H2 & H3). rewrite H2 in G. pose proof (ID_same t T n q R G) as E. destruct q.
        + apply K. exists (KIdent (snd (ID t n true))). split; [now constructor|exact Logic.I].
        + destruct (Z.ltb_spec (snd (ID t n false)) 0) as [N|N]; apply K.
          * exists (KReserved (snd (ID t n false))). split; [now constructor|exact N].
          * exists (KIdent (snd (ID t n false))). split; [now constructor|exact Logic.I].
      - cbn [holds] in Hh. destruct Hh as (H1 & _). assert (E : tok_of c = KBytes (c_bytes c)) by (unfold tok_of; now rewrite H1). rewrite E. split; [apply tr_bytes|split; exact Logic.I].
    Qed.

    Definition fine (t : idtable) (k : tok) : Prop := named t k /\ proper k.
    Lemma fine_grown t t' l : incl (entries t) (entries t') -> Forall (fine t) l -> Forall (fine t') l.
    Proof.
      intros G H. apply Forall_forall. intros k Hk. rewrite Forall_forall in H. destruct (H k Hk) as [H1 H2]. split; [|exact H2].
      assert (K : Forall (named t) [k]) by (constructor; [exact H1|constructor]). apply (named_grown _ _ _ G) in K. now inversion K.
    Qed.

    Lemma follow {A} (g : act A) : forall t pc (Q : list tok -> A -> list tok -> list tok -> Prop) x t',
      t_past t = pc ++ base -> scanning input (t_scanner t) -> real (s_ids (t_scanner t)) ->
      Forall (fine (s_ids (t_scanner t))) (map tok_of pc ++ map tok_of (t_ahead t)) ->
      tidy (rev (map tok_of pc) ++ map tok_of (t_ahead t)) ->
      (forall fut, wpl (number T) (idString T) g (map tok_of pc) (map tok_of (t_ahead t) ++ fut) (Q fut)) ->
      t_run g t = Done x t' -> grown (s_ids (t_scanner t')) T ->
      exists vs new pc', scans (rest (t_scanner t)) vs new (rest (t_scanner t')) /\ t_past t' = pc' ++ base /\
        tidy (rev (map tok_of pc') ++ map tok_of (t_ahead t')) /\ Q new x (map tok_of pc') (map tok_of (t_ahead t')).
    Proof.
      induction g as [y| | | |kk IH|kk IH|kk IH|s kk IH|i kk IH|l kk IH|kk IH]; intros t pc Q x t' HP HS HR HN HT HW E GT; cbn [t_run] in E; try discriminate.
      - injection E as <- <-. exists [], [], pc. split; [constructor|]. split; [exact HP|]. split; [exact HT|]. specialize (HW []). rewrite app_nil_r in HW. exact HW.
      - (* scan *) unfold t_next in E. destruct (t_ahead t) as [|c ac] eqn:EA.
        + cbn [map app] in *. rewrite app_nil_r in *. pose proof (proj1 (HW [])) as HC.
          destruct (Scan (t_scanner t) (nth 2 (t_past t) c_zero)) as [[s' c']|] eqn:ES; [|discriminate].
          destruct (match tok_of c' with KError true => true | _ => false end) eqn:EE; [discriminate|].
          set (t1 := {| t_past := c' :: t_past t; t_ahead := []; t_scanner := s' |}) in *. change (t_tok t1) with (tok_of c') in E.
          pose proof (Scan_grown HU _ _ _ _ _ HS HR ES) as GS. pose proof (sc_scan _ _ _ _ _ HS ES) as S'.
          assert (G1 : grown (s_ids s') T) by (apply (ends_grown HU input T (kk (tok_of c')) t1 S' (proj1 GS)); rewrite E; exact GT).
          assert (GO : named (s_ids s') (tok_of c') -> proper (tok_of c') -> exists vs new pc', scans (rest s') vs new (rest (t_scanner t')) /\ t_past t' = pc' ++ base /\
             tidy (rev (map tok_of pc') ++ map tok_of (t_ahead t')) /\ Q (tok_of c' :: new) x (map tok_of pc') (map tok_of (t_ahead t'))).
          { intros N1 P1. apply (IH (tok_of c') t1 (c' :: pc) (fun fut => Q (tok_of c' :: fut)) x t'); cbn [t1 t_past t_ahead t_scanner map app]; auto.
            - now rewrite HP.
            - exact (proj1 GS).
            - rewrite app_nil_r in *. constructor; [now split|]. eapply fine_grown; [exact (proj2 GS)|exact HN].
            - cbn [rev]. rewrite app_nil_r. now apply tidy_more.
            - intros fut. exact (proj2 (HW (tok_of c' :: fut)) P1). }
          destruct (LemmasScanProps.sound HU _ _ _ _ _ HS ES) as [(T1 & I1 & g & e & ER & G & NT)|[(T3 & I1 & _)|(g & w & f & v & ER & G & Hx & Hh)]].
          * assert (K : tok_of c' = KEOF) by (unfold tok_of; now rewrite T1). rewrite K in *. destruct GO as (vs & new & pc' & H1 & H2); [exact Logic.I|exact Logic.I|].
            exists vs, (KEOF :: new), pc'. split; [|exact H2]. destruct (dropped HU _ _ (nth 2 (t_past t) c_zero) _ _ HS ER G NT) as (s2 & ES2 & R2 & _).
            rewrite ES in ES2. injection ES2 as <- _. rewrite R2 in H1. rewrite ER. now constructor.
          * assert (K : exists b, tok_of c' = KError b) by (unfold tok_of; rewrite T3; eexists; reflexivity). destruct K as [b K]. rewrite K in *.
            destruct GO as (vs & new & pc' & H1 & H2); [exact Logic.I|exact Logic.I|]. exists vs, (KError b :: new), pc'. split; [|exact H2]. econstructor; exact H1.
          * destruct (token_from _ _ _ _ _ _ _ HR Hx Hh G1) as (K1 & K2 & K3). destruct (GO K2 K3) as (vs & new & pc' & H1 & H2).
            exists (v :: vs), (tok_of c' :: new), pc'. split; [|exact H2]. rewrite ER. econstructor; eassumption.
        + set (t1 := {| t_past := c :: t_past t; t_ahead := ac; t_scanner := t_scanner t |}) in *. change (t_tok t1) with (tok_of c) in E.
          cbn [map app] in *. apply (IH (tok_of c) t1 (c :: pc) Q x t'); cbn [t1 t_past t_ahead t_scanner map app]; auto.
          * now rewrite HP.
          * apply Forall_app in HN as [N1 N2]. inversion N2; subst. constructor; [assumption|]. apply Forall_app. now split.
          * cbn [rev]. now rewrite <- app_assoc.
          * intros fut. apply (proj2 (HW fut)). apply Forall_app in HN as [_ N2]. inversion N2 as [|? ? [_ N3] _]; subst. exact N3.
      - (* un-read *) unfold t_back in E. rewrite HP in E. destruct pc as [|c pc]; [now specialize (HW [])|]. cbn [app] in E.
        set (t1 := {| t_past := pc ++ base; t_ahead := c :: t_ahead t; t_scanner := t_scanner t |}) in *.
        apply (IH t1 pc Q x t'); cbn [t1 t_past t_ahead t_scanner map app]; auto.
        + cbn [map app] in HN. inversion HN as [|? ? N1 N2]; subst. apply Forall_app in N2 as [N2 N3]. apply Forall_app. split; [exact N2|]. now constructor.
        + cbn [map rev] in HT. now rewrite <- app_assoc in HT.
      - (* the current token *) destruct pc as [|c pc]; [now specialize (HW [])|]. unfold t_tok in E. rewrite HP in E. cbn [app hd] in E.
        apply (IH (tok_of c) t (c :: pc) Q x t'); auto.
      - (* registering a name *) pose proof (ID_grown _ s false HR) as G. pose proof (ID_same (s_ids (t_scanner t)) T s false HR) as SM.
        destruct (ID (s_ids (t_scanner t)) s false) as [ids j] eqn:EI. cbn [fst snd] in *.
        set (t1 := t_set t (set_ids (t_scanner t) ids)) in *.
        assert (R1 : real (s_ids (t_scanner t1))) by (cbn [t1 t_set t_scanner]; rewrite set_ids_ids; apply G).
        assert (G1 : grown (s_ids (t_scanner t1)) T) by (apply (ends_grown HU input T (kk j) t1 (sc_ids _ _ _ HS) R1); rewrite E; exact GT).
        cbn [t1 t_set t_scanner] in G1. rewrite set_ids_ids in G1. specialize (SM G1).
        apply (IH j t1 pc Q x t'); cbn [t1 t_set t_past t_ahead t_scanner]; auto.
        + now constructor.
        + rewrite set_ids_ids. eapply fine_grown; [exact (proj2 G)|exact HN].
        + intros fut. specialize (HW fut). cbn [wpl] in HW. unfold number in HW. now rewrite SM in HW.
      - (* the text of a name *) assert (G1 : grown (s_ids (t_scanner t)) T) by (apply (ends_grown HU input T (kk (idString (s_ids (t_scanner t)) i)) t HS HR); rewrite E; exact GT).
        destruct (HW []) as [EX _].
        apply existsb_exists in EX. destruct EX as (k & Hin & Hk). destruct k as [| | |j|?|?|?|?|?|?|?]; try discriminate. cbn in Hk. apply Z.eqb_eq in Hk. subst j.
        pose proof HN as HN'. apply Forall_app in HN' as [K7 _]. assert (N : named (s_ids (t_scanner t)) (KIdent i)) by (rewrite Forall_forall in K7; exact (proj1 (K7 _ Hin))). destruct N as [m N].
        rewrite (name_same _ _ _ _ HR G1 N) in E. apply (IH (idString T i) t pc Q x t'); auto. intros fut. exact (proj2 (HW fut)).
      - (* bytes *) apply (IH (b_look (s_buffer (t_scanner t)) l) t pc Q x t'); auto. intros fut. exact (HW fut _).
      - now specialize (HW []).
    Qed.

    Lemma scans_text text vs new left ts k : scans text vs new left -> new = ts ++ [k] -> Forall plain ts -> over k = true ->
      exists vs', statement_text text vs' left /\ Forall2 (token_read T) vs' ts.
    Proof.
      intros H. revert ts. induction H as [l|g w v f l k0 vs new left G Hx Hk H IH|g e vs new left G N H IH|l l' b vs new left H IH]; intros ts E HP HO.
      - now destruct ts.
      - destruct ts as [|k1 ts]; cbn [app] in E; injection E as -> ->.
        + inversion H; subst. destruct Hk as [v k Hk|]; [|discriminate]. destruct Hk; try discriminate. exists []. split; [|constructor]. apply stx_end. cbn [app]. econstructor; [exact G|exact Hx|constructor].
        + inversion HP as [|? ? P1 P2]; subst. destruct (IH ts eq_refl P2 HO) as (vs' & S' & F'). exists (v :: vs'). split; [|now constructor].
          inversion S' as [text' vs0 left' K|text' vs0 g' e' K G' N']; subst; [apply stx_end; cbn [app]; econstructor; eassumption|]. eapply stx_eof; [econstructor; eassumption|exact G'|exact N'].
      - destruct ts as [|k1 ts]; cbn [app] in E; injection E as <- ->.
        + inversion H; subst. exists []. split; [|constructor]. eapply stx_eof; [constructor|exact G|exact N].
        + inversion HP as [|? ? P1 P2]; subst. destruct P1.
      - destruct ts as [|k1 ts]; cbn [app] in E; injection E as <- ->.
        + discriminate.
        + inversion HP as [|? ? P1 P2]; subst. destruct P1.
    Qed.
  End Follow.

  (** ** Statements other than COPY *)

  Lemma t_run_bind {A D} (g : act A) (h : A -> act D) : forall t, t_run (abind g h) t =
    match t_run g t with Done x t' => t_run (h x) t' | Failed t' => Failed t' | Crashed t' => Crashed t' | Stuck => Stuck end.
  Proof.
    induction g as [x| | | |k IH|k IH|k IH|s k IH|i k IH|l k IH|k IH]; intros t; cbn [t_run abind]; try reflexivity; auto.
    - destruct (t_next t) as [[t' [|]]|]; auto.
    - destruct (t_back t); auto.
    - destruct (ID _ s false). auto.
  Qed.
  Lemma post_run {A} (g : act A) (Q : A -> Prop) : post g Q -> forall t x t', t_run g t = Done x t' -> Q x.
  Proof.
    induction g as [x| | | |k IH|k IH|k IH|s k IH|i k IH|l k IH|k IH]; cbn [post t_run]; intros H t y t' E; try discriminate.
    - now injection E as <- <-.
    - destruct (t_next t) as [[t1 [|]]|]; try discriminate. now apply IH in E.
    - destruct (t_back t) as [t1|]; [|discriminate]. now apply IH in E.
    - now apply IH in E.
    - destruct (ID _ s false). now apply IH in E.
    - now apply IH in E.
    - now apply IH in E.
    - now apply IH in E.
  Qed.
  Lemma copy_copies n : post (parseCopy n) (fun s => copies s = true).
  Proof.
    unfold parseCopy. apply post_then. intros tn. apply post_then. intros paren. apply post_then. intros cols. apply post_then. intros kw. apply post_then. intros i.
    destruct (negb _); [exact Logic.I|]. apply post_then. intros b. apply post_then. intros d z. reflexivity.
  Qed.
  Lemma only_one n s t t' : copies s = false -> t_run (parseWhole n) t = Done (Some s) t' -> t_run (parseOne n) t = Done (Some s) t'.
  Proof.
    intros NC. unfold parseWhole, parseStmt, parseOne. rewrite !t_run_bind. destruct (t_run (maybeToken tEndOfStatement) t) as [b t1|t1|t1|]; try discriminate. destruct b.
    - cbn [t_run]. rewrite t_run_bind. destruct (t_run expectEndOfStatement t1); cbn [t_run]; discriminate.
    - rewrite !t_run_bind. destruct (t_run (expectReserved stmtKeywords) t1) as [kw t2|t2|t2|]; try discriminate. destruct (kw =? kCOPY) eqn:EC; [|now rewrite t_run_bind].
      apply Z.eqb_eq in EC. subst kw. unfold parseStmtOf. cbn [Z.eqb Pos.eqb]. rewrite t_run_bind. destruct (t_run (parseCopy n) t2) as [c t3|t3|t3|] eqn:E; try discriminate.
      apply (post_run _ _ (copy_copies n)) in E. cbn [t_run]. rewrite t_run_bind. destruct (t_run expectEndOfStatement t3); try discriminate. cbn [t_run]. congruence.
  Qed.

  (** ** Parsing *)

  Lemma one_sound input n s0 t tt : scanning input (t_scanner t) -> real (s_ids (t_scanner t)) -> t_ahead t = [] ->
    t_run (AScan (fun _ => AUnscan (parseOne n))) t = Done (Some s0) tt ->
    t_ahead tt = [] /\ exists vs ts, statement_text (rest (t_scanner t)) vs (rest (t_scanner tt)) /\ Forall2 (token_read (s_ids (t_scanner tt))) vs ts /\
      accepts (number (s_ids (t_scanner tt))) (idString (s_ids (t_scanner tt))) s0 ts.
  Proof.
    intros S1 R Hu ER1. set (T := s_ids (t_scanner tt)).
    pose proof (run_grown HU input (AScan (fun _ => AUnscan (parseOne n))) t S1 R) as RG. rewrite ER1 in RG.
    destruct (follow input T (t_past t) (AScan (fun _ => AUnscan (parseOne n))) t []
      (fun fut x p' a' => exists ts k, fut = ts ++ k :: a' /\ p' = k :: rev ts ++ [] /\ over k = true /\ accepts_or_nil (number T) (idString T) x ts) (Some s0) tt)
      as (vs & new & pc' & H1 & H2 & H3 & (ts & k & E1 & E2 & E3 & E4)).
    - reflexivity.
    - exact S1.
    - exact R.
    - rewrite Hu. constructor.
    - rewrite Hu. constructor.
    - intros fut. rewrite Hu. cbn [map app]. split; [exact Logic.I|]. destruct fut as [|k0 fut]; [exact Logic.I|]. intros _. apply S_one. exact Logic.I.
    - exact ER1.
    - exact (grown_refl _ (proj1 RG)).
    - cbn [accepts_or_nil] in E4.
      assert (EA : t_ahead tt = []).
      { rewrite E2 in H3. destruct (t_ahead tt) as [|c ac]; [reflexivity|]. exfalso. unfold tidy in H3. cbn [rev map] in H3. rewrite <- app_assoc, removelast_app in H3 by discriminate.
        apply Forall_app in H3 as [_ H3]. cbn [app removelast] in H3. inversion H3; subst. congruence. }
      split; [exact EA|]. rewrite EA in E1. cbn [map] in E1. destruct (scans_text T _ _ _ _ ts k H1 E1 (accepts_plain _ _ _ _ E4) E3) as (vs' & K1 & K2).
      exists vs', ts. split; [exact K1|]. now split.
  Qed.

  Lemma parse_sound input p s p' : parsing input p -> p_unscanned p = 0%nat -> p_failed p = false -> real (s_ids (p_scanner p)) ->
    Parse p = PStmt (Some s) p' -> copies s = false ->
    exists vs left, statement_text (rest (p_scanner p)) vs left /\ text_accepts (s_ids (p_scanner p')) vs s /\
      rest (p_scanner p') = left /\ p_unscanned p' = 0%nat.
  Proof.
    intros HPs Hu Hf R EP NC. destruct (parsing_in_step HU _ _ HPs) as [t HS]. pose proof (parse_same HU _ _ _ HS) as SM. rewrite EP, Hf in SM. clear EP.
    pose proof HS as ((O1 & O2 & O3 & _) & S1 & _). rewrite O1 in *. rewrite O2 in Hu. apply length_zero_iff_nil in Hu.
    destruct (t_parse false t) as [so tt| | | | |] eqn:ET; try contradiction. destruct SM as (ES & HS' & _).
    destruct so as [s0|]; [|discriminate]. cbn [option_map] in ES. injection ES as ES.
    assert (NC0 : copies s0 = false) by (rewrite ES in NC; destruct s0; try reflexivity; discriminate NC).
    unfold t_parse in ET. destruct (t_next t) as [[t1 [|]]|] eqn:EN; try discriminate.
    assert (ER : exists n, t_run (AScan (fun _ => AUnscan (parseWhole n))) t = Done (Some s0) tt).
    { destruct (t_tok t1) eqn:EK; try discriminate; (destruct (t_back t1) as [t2|] eqn:EB; [|discriminate]; destruct (t_run (parseWhole (t_fuel t2)) t2) as [x t3|t3|t3|] eqn:ER; try discriminate;
        injection ET as -> ->; exists (t_fuel t2); cbn [t_run]; rewrite EN, EB; exact ER). }
    clear ET EN t1. destruct ER as [n ER].
    assert (ER1 : t_run (AScan (fun _ => AUnscan (parseOne n))) t = Done (Some s0) tt).
    { cbn [t_run] in *. destruct (t_next t) as [[t1 [|]]|]; try discriminate. destruct (t_back t1); [|discriminate]. now apply only_one. }
    clear ER. destruct (one_sound input n s0 t tt S1 R Hu ER1) as (EA & vs & ts & K1 & K2 & K3).
    exists vs, (rest (t_scanner tt)). pose proof HS' as ((O1' & O2' & _) & _). rewrite O1', O2', EA. split; [exact K1|]. split; [|split; reflexivity].
    exists ts. split; [exact K2|]. rewrite ES. now apply deref_accepts.
  Qed.
End SoundLink.
